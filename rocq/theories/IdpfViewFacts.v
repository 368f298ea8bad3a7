(** Proofs about the view of one Aggregator on an IDPF sharing. *)
From Verif Require Import IdpfViewSpec IdpfFacts PostFacts FieldFacts XofFacts VecFacts.
Open Scope nat_scope.

Section Lists.
Context {P : FieldClass}.
Add Ring FringIV : (@F_ring P).

Lemma solve1 (b w0 d : list (F P)) : length w0 = length b -> length d = length b ->
  zip_with fadd (zip_with fsub b w0) (zip_with fadd (zip_with fsub d b) w0) = d.
Proof.
  revert w0 d; induction b as [|x b IH]; intros [|y w0] [|z d] H1 H2; try discriminate; [easy|].
  cbn [zip_with]. f_equal; [ring|]. apply IH; cbn in *; lia.
Qed.
Lemma unique1 (b w0 w1 w1' : list (F P)) : length w0 = length b -> length w1 = length b -> length w1' = length b ->
  zip_with fadd (zip_with fsub b w0) w1 = zip_with fadd (zip_with fsub b w0) w1' -> w1 = w1'.
Proof.
  revert w0 w1 w1'; induction b as [|x b IH]; intros [|y w0] [|z w1] [|z' w1'] H1 H2 H3 E; try discriminate; [easy|].
  cbn [zip_with] in E. pose proof (f_equal (hd f0) E) as E0. apply (f_equal (@tl _)) in E. cbn [hd tl] in E0, E. f_equal.
  - assert (H : z = fadd (fadd (fsub x y) z) (fsub y x)) by ring. rewrite E0 in H. rewrite H. ring.
  - revert E. apply IH; cbn in *; lia.
Qed.
Lemma solve0 (b w1 d : list (F P)) : length w1 = length b -> length d = length b ->
  zip_with fadd (zip_with fsub b (zip_with fsub (zip_with fadd b w1) d)) w1 = d.
Proof.
  revert w1 d; induction b as [|x b IH]; intros [|y w1] [|z d] H1 H2; try discriminate; [easy|].
  cbn [zip_with]. f_equal; [ring|]. apply IH; cbn in *; lia.
Qed.
Lemma unique0 (b w0 w0' w1 : list (F P)) : length w1 = length b -> length w0 = length b -> length w0' = length b ->
  zip_with fadd (zip_with fsub b w0) w1 = zip_with fadd (zip_with fsub b w0') w1 -> w0 = w0'.
Proof.
  revert w0 w0' w1; induction b as [|x b IH]; intros [|y w0] [|y' w0'] [|z w1] H1 H2 H3 E; try discriminate; [easy|].
  cbn [zip_with] in E. pose proof (f_equal (hd f0) E) as E0. apply (f_equal (@tl _)) in E. cbn [hd tl] in E0, E. f_equal.
  - assert (H : y = fsub (fadd x z) (fadd (fsub x y) z)) by ring. rewrite E0 in H. rewrite H. ring.
  - revert E. apply IH; cbn in *; lia.
Qed.
Lemma neg_neg (d : list (F P)) : map fneg (map fneg d) = d.
Proof. rewrite map_map. erewrite map_ext; [apply map_id|]. intros x. cbn. ring. Qed.
End Lists.

Section V.
Context (i : Idpf) (lim : Z) (HO : IdpfOk i lim).
Notation Pi := (id_field_inner i).
Notation Pl := (id_field_leaf i).
Notation FVec := (FieldVec Pi Pl).
Notation KEY := (id_KEY_SIZE i).
Notation BITS := (id_BITS i).
Notation VLEN := (id_VALUE_LEN i).
Notation E_out := (E_out i).

Lemma of_level_same level (v w : FVec) : of_level i level VLEN v -> of_level i level VLEN w ->
  (exists a b, v = Inner a /\ w = Inner b) \/ (exists a b, v = Leaf a /\ w = Leaf b).
Proof. destruct v as [a|a], w as [b|b]; cbn; intros [H1 _] [H2 _]; try lia; [left | right]; eauto. Qed.

(** The payload of a correction word determines the mask, and every payload occurs. *)
Lemma payload_solve (j c : bool) level (b w e : FVec) :
  of_level i level VLEN b -> of_level i level VLEN w -> of_level i level VLEN e ->
  exists mw, of_level i level VLEN mw /\
    (let '(w0, w1) := if j then (mw, w) else (w, mw) in
     let* d := fv_sub b w0 in let* d := fv_add d w1 in Ok (if c then fv_neg d else d)) = Ok e /\
  forall mw', of_level i level VLEN mw' ->
    (let '(w0, w1) := if j then (mw', w) else (w, mw') in
     let* d := fv_sub b w0 in let* d := fv_add d w1 in Ok (if c then fv_neg d else d)) = Ok e -> mw' = mw.
Proof.
  unfold of_level.
  destruct b as [b|b], w as [w|w], e as [e|e]; intros [Hl Hb] [Hl0 H0] [Hl1 H1]; try lia.
  all: set (e' := if c then map fneg e else e); assert (He : length e' = VLEN) by (subst e'; destruct c; rewrite ?map_length; easy).
  all: assert (Hw : e = if c then map fneg e' else e') by (subst e'; destruct c; now rewrite ?neg_neg).
  all: clearbody e'; subst e.
  all: assert (Hneg : forall P (x y : list (F P)), (if c then map fneg x else x) = (if c then map fneg y else y) -> x = y)
      by (intros P x y E; destruct c; [rewrite <- (neg_neg x), <- (neg_neg y); now rewrite E | easy]).
  all: destruct j.
  - exists (Inner (zip_with fsub (zip_with fadd b w) e')).
    assert (L : length (zip_with fsub (zip_with fadd b w) e') = VLEN) by (repeat apply zip_len; easy).
    split; [easy|]. split.
    + cbn [fv_sub fv_as]. rewrite map_fcast_id, vec_sub_zip by congruence. cbn [bind fv_add fv_as].
      rewrite map_fcast_id, vec_add_zip by (rewrite (zip_len _ _ _ VLEN) by easy; congruence). cbn [bind].
      rewrite solve0 by congruence. now destruct c.
    + intros [w'|w'] [Hl' Hw']; [|lia]. cbn [fv_sub fv_as]. rewrite map_fcast_id, vec_sub_zip by congruence. cbn [bind fv_add fv_as].
      rewrite map_fcast_id, vec_add_zip by (rewrite (zip_len _ _ _ VLEN) by easy; congruence). cbn [bind].
      intros E. f_equal. apply (unique0 b _ _ w); try congruence. rewrite solve0 by congruence. apply Hneg. destruct c; cbn [fv_neg] in E; unfold vec_neg in E; now injection E.
  - exists (Inner (zip_with fadd (zip_with fsub e' b) w)).
    assert (L : length (zip_with fadd (zip_with fsub e' b) w) = VLEN) by (repeat apply zip_len; easy).
    split; [easy|]. split.
    + cbn [fv_sub fv_as]. rewrite map_fcast_id, vec_sub_zip by congruence. cbn [bind fv_add fv_as].
      rewrite map_fcast_id, vec_add_zip by (rewrite (zip_len _ _ _ VLEN) by easy; congruence). cbn [bind].
      rewrite solve1 by congruence. now destruct c.
    + intros [w'|w'] [Hl' Hw']; [|lia]. cbn [fv_sub fv_as]. rewrite map_fcast_id, vec_sub_zip by congruence. cbn [bind fv_add fv_as].
      rewrite map_fcast_id, vec_add_zip by (rewrite (zip_len _ _ _ VLEN) by easy; congruence). cbn [bind].
      intros E. f_equal. apply (unique1 b w); try congruence. rewrite solve1 by congruence. apply Hneg. destruct c; cbn [fv_neg] in E; unfold vec_neg in E; now injection E.
  - exists (Leaf (zip_with fsub (zip_with fadd b w) e')).
    assert (L : length (zip_with fsub (zip_with fadd b w) e') = VLEN) by (repeat apply zip_len; easy).
    split; [easy|]. split.
    + cbn [fv_sub fv_as]. rewrite map_fcast_id, vec_sub_zip by congruence. cbn [bind fv_add fv_as].
      rewrite map_fcast_id, vec_add_zip by (rewrite (zip_len _ _ _ VLEN) by easy; congruence). cbn [bind].
      rewrite solve0 by congruence. now destruct c.
    + intros [w'|w'] [Hl' Hw']; [lia|]. cbn [fv_sub fv_as]. rewrite map_fcast_id, vec_sub_zip by congruence. cbn [bind fv_add fv_as].
      rewrite map_fcast_id, vec_add_zip by (rewrite (zip_len _ _ _ VLEN) by easy; congruence). cbn [bind].
      intros E. f_equal. apply (unique0 b _ _ w); try congruence. rewrite solve0 by congruence. apply Hneg. destruct c; cbn [fv_neg] in E; unfold vec_neg in E; now injection E.
  - exists (Leaf (zip_with fadd (zip_with fsub e' b) w)).
    assert (L : length (zip_with fadd (zip_with fsub e' b) w) = VLEN) by (repeat apply zip_len; easy).
    split; [easy|]. split.
    + cbn [fv_sub fv_as]. rewrite map_fcast_id, vec_sub_zip by congruence. cbn [bind fv_add fv_as].
      rewrite map_fcast_id, vec_add_zip by (rewrite (zip_len _ _ _ VLEN) by easy; congruence). cbn [bind].
      rewrite solve1 by congruence. now destruct c.
    + intros [w'|w'] [Hl' Hw']; [lia|]. cbn [fv_sub fv_as]. rewrite map_fcast_id, vec_sub_zip by congruence. cbn [bind fv_add fv_as].
      rewrite map_fcast_id, vec_add_zip by (rewrite (zip_len _ _ _ VLEN) by easy; congruence). cbn [bind].
      intros E. f_equal. apply (unique1 b w); try congruence. rewrite solve1 by congruence. apply Hneg. destruct c; cbn [fv_neg] in E; unfold vec_neg in E; now injection E.
Qed.

Lemma even_land b : Z.land (Z.land b 254) 1 = 0%Z.
Proof. now rewrite <- Z.land_assoc, Z.land_0_r. Qed.
Lemma even_upd (s : bytes) b : 0 < length s -> even_seed (upd s 0 (z2b (Z.land (b2z b) 254))).
Proof.
  intros H. unfold even_seed. destruct s as [|x s]; [cbn in H; lia|]; cbn [upd nth]. rewrite b2z_z2b; [apply even_land|].
  pose proof (b2z_range b). split; [apply Z.land_nonneg; lia|].
  apply Z.le_lt_trans with 254%Z; [|lia].
  destruct b; vm_compute; discriminate.
Qed.
Lemma extend_even level seed ctx nonce s t : length seed = KEY -> ctx_ok ctx ->
  extend i level seed ctx nonce = Ok (s, t) -> even_seed (fst s) /\ even_seed (snd s).
Proof.
  assert (A : forall X, extend_with i X seed ctx nonce = Ok (s, t) -> length (fst s) = KEY -> length (snd s) = KEY ->
    even_seed (fst s) /\ even_seed (snd s)).
  { intros X E L0 L1. pose proof (io_key _ _ HO) as HK. unfold extend_with in E. revert E.
    destruct (format_dst 1 0 0) as [d|]; cbn [bind]; [|discriminate].
    destruct (xof_init X seed (d ++ ctx) nonce) as [st|]; cbn [bind]; [|discriminate].
    destruct (xof_next X st KEY) as [[a st1]|]; cbn [bind]; [|discriminate].
    destruct (xof_next X st1 KEY) as [[b st2]|]; cbn [bind]; [|discriminate].
    destruct (get a 0) as [a0|] eqn:Ea; cbn [bind]; [|discriminate].
    destruct (get b 0) as [b0|] eqn:Eb; cbn [bind]; [|discriminate].
    assert (0 < length a) by (destruct a; cbn in Ea |- *; [discriminate | lia]).
    assert (0 < length b) by (destruct b; cbn in Eb |- *; [discriminate | lia]).
    rewrite !set_lt by easy. cbn [bind]. intros E. injection E as <- <-. cbn [fst snd]. split; now apply even_upd. }
  intros Hs Hc E. destruct (extend_ok i lim HO level seed ctx nonce Hs Hc) as (s' & t' & E' & L0 & L1).
  rewrite E in E'. injection E' as <- <-. unfold extend in E. destruct (is_inner i level); eapply A; eauto.
Qed.
Lemma xor_even a b : even_seed a -> even_seed b -> 0 < length a -> 0 < length b -> even_seed (xor a b).
Proof.
  unfold even_seed. intros Ha Hb La Lb. rewrite nth_xor by easy. rewrite byte_xor_z.
  apply Z.bits_inj'. intros n _. apply (f_equal (fun z => Z.testbit z n)) in Ha, Hb.
  rewrite Z.land_spec, Z.bits_0 in *. rewrite Z.lxor_spec. destruct (Z.testbit 1 n); [|apply andb_false_r].
  rewrite andb_true_r in *. now rewrite Ha, Hb.
Qed.

Section L.
Context (alpha : list bool) (beta_inner : list (list (F Pi))) (beta_leaf : list (F Pl)) (ctx nonce : bytes).
Context (Hc : ctx_ok ctx) (HB : forall level, level < BITS -> of_level i level VLEN (beta_at i beta_inner beta_leaf level)).
Notation ideal_level := (ideal_level i alpha beta_inner beta_leaf ctx nonce).
Notation ideal_from := (ideal_from i alpha beta_inner beta_leaf ctx nonce).

Lemma payload_total (j c : bool) level (b w mw : FVec) :
  of_level i level VLEN b -> of_level i level VLEN w -> of_level i level VLEN mw ->
  exists d e, (let '(w0, w1) := if j then (mw, w) else (w, mw) in fv_sub b w0 = Ok d /\ fv_add d w1 = Ok e) /\
    of_level i level VLEN (if c then fv_neg e else e).
Proof.
  intros Hb Hw Hm.
  destruct j.
  - destruct (payload i level b mw w Hb Hm Hw) as (d & e & E1 & E2 & He & _). exists d, e. split; [easy|].
    destruct c; [now apply neg_of_level | easy].
  - destruct (payload i level b w mw Hb Hw Hm) as (d & e & E1 & E2 & He & _). exists d, e. split; [easy|].
    destruct c; [now apply neg_of_level | easy].
Qed.

Lemma on_path_len bit (s : bytes * bytes) t ctrl (cw : bytes * (bool * bool)) : length (fst s) = KEY -> length (snd s) = KEY -> length (fst cw) = KEY ->
  length (fst (on_path bit s t ctrl cw)) = KEY.
Proof. intros H0 H1 H2. unfold on_path. destruct ctrl, bit; unfold pick; cbn [fst snd]; rewrite ?xor_length, ?H0, ?H1, ?H2; lia. Qed.
Lemma pick_len bit (s : bytes * bytes) n : length (fst s) = n -> length (snd s) = n -> length (pick bit s) = n.
Proof. now destruct bit. Qed.

Lemma ideal_level_total j level seed ctrl m : level < BITS -> length seed = KEY -> word_wf i level m ->
  post (ideal_level j level seed ctrl m)
    (fun '(seed', _, cw) => length seed' = KEY /\ word_wf i level cw) E_out.
Proof.
  intros Hl Hs. destruct m as [[ms mt] mw]. intros (Lm & Em & Hm). cbn [fst snd] in *. unfold IdpfViewSpec.ideal_level.
  set (bit := nth level alpha false).
  destruct (extend_ok i lim HO level seed ctx nonce Hs Hc) as (s & t & E & L0 & L1). rewrite E. cbn [bind].
  destruct (extend_even _ _ _ _ _ _ Hs Hc E) as [V0 V1].
  set (seed_cw := xor (pick (negb bit) s) ms). set (ctrl_cw := (xorb _ (negb bit), _)).
  assert (Lcw : length seed_cw = KEY) by (subst seed_cw; rewrite xor_length, (pick_len _ _ KEY); lia).
  destruct (on_path bit s t ctrl (seed_cw, ctrl_cw)) as [x ctrl'] eqn:Ex.
  assert (Lx : length x = KEY) by (replace x with (fst (on_path bit s t ctrl (seed_cw, ctrl_cw))) by (now rewrite Ex); now apply on_path_len).
  eapply post_bind; [apply (convert_post i lim HO level x ctx nonce Lx Hc)|]. intros [seed' w] Ew [Ls' Hw]. cbn [fst snd] in *.
  destruct (payload_total j (if j then ctrl' else negb ctrl') level _ w mw (HB _ Hl) Hw Hm) as (d & e & Ee & He).
  destruct (if j then (mw, w) else (w, mw)) as [w0 w1]. destruct Ee as [E1 E2]. rewrite E1. cbn [bind]. rewrite E2. cbn [bind post].
  split; [easy|]. split; [easy|]. cbn [fst snd]. split; [|easy].
  pose proof (io_key _ _ HO). apply xor_even; [now destruct bit | easy | rewrite (pick_len _ _ KEY) by easy; lia | lia].
Qed.

Lemma ideal_level_onto j level seed ctrl cw : level < BITS -> length seed = KEY -> word_wf i level cw ->
  (exists m seed' ctrl', word_wf i level m /\ length seed' = KEY /\ ideal_level j level seed ctrl m = Ok (seed', ctrl', cw) /\
     forall m' s' c', word_wf i level m' -> ideal_level j level seed ctrl m' = Ok (s', c', cw) ->
       m' = m /\ s' = seed' /\ c' = ctrl') \/ idpf_ran_out i.
Proof.
  intros Hl Hs. destruct cw as [[cs ct] ce]. intros (Lc & Vc & Hce). cbn [fst snd] in *. unfold IdpfViewSpec.ideal_level.
  set (bit := nth level alpha false).
  destruct (extend_ok i lim HO level seed ctx nonce Hs Hc) as (s & t & E & L0 & L1). rewrite E. cbn [bind].
  destruct (extend_even _ _ _ _ _ _ Hs Hc E) as [V0 V1].
  destruct (on_path bit s t ctrl (cs, ct)) as [x ctrl'] eqn:Ex.
  assert (Lx : length x = KEY) by (replace x with (fst (on_path bit s t ctrl (cs, ct))) by (now rewrite Ex); now apply on_path_len).
  pose proof (convert_post i lim HO level x ctx nonce Lx Hc) as PC.
  destruct (convert i level x ctx nonce) as [[seed' w]|e] eqn:Ew; [|right; apply PC]. left.
  destruct PC as [Ls' Hw]. cbn [fst snd] in *.
  destruct (payload_solve j (if j then ctrl' else negb ctrl') level _ w ce (HB _ Hl) Hw Hce) as (mw & Hmw & Emw & Umw).
  pose proof (io_key _ _ HO) as HK.
  assert (Lp : length (pick (negb bit) s) = KEY) by now apply pick_len.
  exists (xor (pick (negb bit) s) cs, (xorb (xorb (fst t) (fst ct)) (negb bit), xorb (xorb (snd t) (snd ct)) bit), mw), seed', ctrl'.
  assert (X : forall a, length a = KEY -> xor (pick (negb bit) s) (xor (pick (negb bit) s) a) = a).
  { intros a La. rewrite (xor_comm _ a), (xor_comm _ (xor a _)). apply xor_cancel. lia. }
  assert (Y : (xorb (xorb (fst t) (xorb (xorb (fst t) (fst ct)) (negb bit))) (negb bit),
               xorb (xorb (snd t) (xorb (xorb (snd t) (snd ct)) bit)) bit) = ct).
  { destruct t as [[] []], ct as [[] []], bit; reflexivity. }
  split; [split; [|split]; cbn [fst snd]|].
  - rewrite xor_length. lia.
  - apply xor_even; [now destruct bit | easy | lia | lia].
  - easy.
  - split; [easy|]. split.
    + cbn [fst snd]. rewrite X, Y, Ex by easy. rewrite Ew. cbn [bind].
      destruct (if j then (mw, w) else (w, mw)) as [w0 w1]. revert Emw.
      destruct (fv_sub _ w0) as [d|]; cbn [bind]; [|discriminate]. destruct (fv_add d w1) as [d'|]; cbn [bind]; [|discriminate].
      intros E1. injection E1 as <-. reflexivity.
    + intros [[ms mt] mw'] s' c' (Lm & Vm & Hm). cbn [fst snd] in *.
      destruct (on_path bit s t ctrl (xor (pick (negb bit) s) ms, _)) as [x' c''] eqn:Ex'.
      destruct (convert i level x' ctx nonce) as [[sd w']|] eqn:Ew'; cbn [bind]; [|discriminate].
      intros E1.
      assert (Es : xor (pick (negb bit) s) ms = cs /\
                   (xorb (xorb (fst t) (fst mt)) (negb bit), xorb (xorb (snd t) (snd mt)) bit) = ct).
      { destruct (if j then (mw', w') else (w', mw')) as [w0 w1]. revert E1.
        destruct (fv_sub _ w0) as [d|]; cbn [bind]; [|discriminate]. destruct (fv_add d w1) as [d'|]; cbn [bind]; [|discriminate].
        intros E1. injection E1 as _ _ E2 E3 _. easy. }
      destruct Es as [Es Et]. rewrite Es, Et, Ex in Ex'. injection Ex' as <- <-.
      rewrite Ew in Ew'. injection Ew' as <- <-.
      assert (Em : mw' = mw).
      { apply Umw; [easy|]. destruct (if j then (mw', w) else (w, mw')) as [w0 w1]. revert E1.
        destruct (fv_sub _ w0) as [d|]; cbn [bind]; [|discriminate]. destruct (fv_add d w1) as [d'|]; cbn [bind]; [|discriminate].
        intros E1. injection E1 as _ _ _ _ E2. now rewrite E2. }
      subst mw'. split; [|].
      * f_equal. f_equal; [rewrite <- Es; symmetry; now apply X|]. rewrite <- Et. destruct mt as [[] []], t as [[] []], bit; reflexivity.
      * destruct (if j then (mw, w) else (w, mw)) as [w0 w1]. revert E1.
        destruct (fv_sub _ w0) as [d|]; cbn [bind]; [|discriminate]. destruct (fv_add d w1) as [d'|]; cbn [bind]; [|discriminate].
        intros E1. injection E1 as E2 E3 _ _ _. easy.
Qed.

Lemma ideal_from_total j masks : forall level seed ctrl, level + length masks <= BITS -> length seed = KEY ->
  words_from i level masks ->
  post (ideal_from j level seed ctrl masks) (fun ps => length ps = length masks /\ words_from i level ps) E_out.
Proof.
  induction masks as [|m masks IH]; intros level seed ctrl Hl Hs H; cbn [IdpfViewSpec.ideal_from]; [easy|].
  destruct H as [Hm H]. cbn [length] in Hl.
  eapply post_bind; [apply (ideal_level_total j level seed ctrl m); [lia | easy | easy]|].
  intros [[seed' ctrl'] cw] _ [Ls Hw].
  eapply post_bind; [apply (IH (S level) seed' ctrl'); [lia | easy | easy]|].
  intros rest _ [Hlen Hr]. cbn. split; [lia | easy].
Qed.

Lemma ideal_from_onto j ps : forall level seed ctrl, level + length ps <= BITS -> length seed = KEY ->
  words_from i level ps ->
  (exists masks, length masks = length ps /\ words_from i level masks /\ ideal_from j level seed ctrl masks = Ok ps /\
     forall masks', words_from i level masks' -> ideal_from j level seed ctrl masks' = Ok ps -> masks' = masks) \/ idpf_ran_out i.
Proof.
  induction ps as [|cw ps IH]; intros level seed ctrl Hl Hs H.
  - left. exists []. repeat split. intros [|m masks'] Hm; [easy|]. cbn [IdpfViewSpec.ideal_from].
    destruct (ideal_level j level seed ctrl m) as [[[? ?] ?]|]; cbn [bind]; [|discriminate].
    destruct (ideal_from _ _ _ _ _); discriminate.
  - destruct H as [Hw H]. cbn [length] in Hl.
    destruct (ideal_level_onto j level seed ctrl cw) as [(m & seed' & ctrl' & Hm & Ls & Em & Um) | HR]; [lia | easy | easy | | now right].
    destruct (IH (S level) seed' ctrl') as [(masks & Len & Hms & Ems & Ums) | HR]; [lia | easy | easy | | now right].
    left. exists (m :: masks). split; [cbn [length]; lia|]. split; [easy|]. split.
    + cbn [IdpfViewSpec.ideal_from]. rewrite Em. cbn [bind]. rewrite Ems. reflexivity.
    + intros [|m' masks'] Hm'; cbn [IdpfViewSpec.ideal_from]; [discriminate|]. destruct Hm' as [Hm' Hms'].
      destruct (ideal_level j level seed ctrl m') as [[[s' c'] cw']|] eqn:E'; cbn [bind]; [|discriminate].
      destruct (ideal_from j (S level) s' c' masks') as [rest|] eqn:Er; cbn [bind]; [|discriminate].
      intros E. injection E as -> ->. destruct (Um m' s' c' Hm' E') as (-> & -> & ->). f_equal. now apply Ums.
Qed.

Notation expand_from := (expand_from i alpha ctx nonce).
Notation gen_level := (gen_level i alpha beta_inner beta_leaf ctx nonce).

(** One level of gen is one level of the ideal sharing, with the expansion of the
    other key as mask. *)
Lemma gen_level_ideal j level seeds ctrls acc seeds' ctrls' acc' : level < length alpha ->
  xorb (fst ctrls) (snd ctrls) = true ->
  gen_level (seeds, ctrls, acc) level = Ok (seeds', ctrls', acc') ->
  xorb (fst ctrls') (snd ctrls') = true /\
  exists cw s t x w, acc' = acc ++ [cw] /\
    extend i level (pick (negb j) seeds) ctx nonce = Ok (s, t) /\
    on_path (nth level alpha false) s t (pick (negb j) ctrls) (fst cw) = (x, pick (negb j) ctrls') /\
    convert i level x ctx nonce = Ok (pick (negb j) seeds', w) /\
    ideal_level j level (pick j seeds) (pick j ctrls) (pick (negb (nth level alpha false)) s, t, w)
    = Ok (pick j seeds', pick j ctrls', cw).
Proof.
  intros Hl Hx. unfold Idpf.gen_level. rewrite (get_nth alpha level false) by easy. cbn [bind].
  set (bit := nth level alpha false).
  destruct seeds as [sd0 sd1], ctrls as [c0 c1]. cbn [fst snd] in *.
  destruct (extend i level sd0 ctx nonce) as [[s0 t0]|] eqn:E0; cbn [bind]; [|discriminate].
  destruct (extend i level sd1 ctx nonce) as [[s1 t1]|] eqn:E1; cbn [bind]; [|discriminate].
  set (seed_cw := xor (pick (negb bit) s0) (pick (negb bit) s1)).
  set (ctrl_cw := (xorb (xorb (fst t0) (fst t1)) (negb bit), xorb (xorb (snd t0) (snd t1)) bit)).
  set (n0 := if c0 then _ else _). set (n1 := if c1 then (xor (pick bit s1) seed_cw, _) else _).
  assert (Hn : xorb (snd n0) (snd n1) = true).
  { subst n0 n1 ctrl_cw. destruct c0, c1; try discriminate; destruct bit; cbn [pick fst snd]; destruct t0 as [[] []], t1 as [[] []]; reflexivity. }
  assert (O0 : on_path bit s0 t0 c0 (seed_cw, ctrl_cw) = n0) by reflexivity.
  assert (O1 : on_path bit s1 t1 c1 (seed_cw, ctrl_cw) = n1) by reflexivity.
  clearbody n0 n1. destruct n0 as [x0 ctrl0], n1 as [x1 ctrl1]. cbn [fst snd] in Hn.
  destruct (convert i level x0 ctx nonce) as [[seed0 w0]|] eqn:W0; cbn [bind]; [|discriminate].
  destruct (convert i level x1 ctx nonce) as [[seed1 w1]|] eqn:W1; cbn [bind]; [|discriminate].
  assert (EB : forall b, (if level <? BITS - 1 then let* v := get beta_inner level in Ok (Inner v) else Ok (Leaf beta_leaf)) = Ok b ->
    b = beta_at i beta_inner beta_leaf level).
  { intros b. unfold beta_at. destruct (level <? BITS - 1); [|congruence]. unfold get.
    destruct (nth_error beta_inner level) as [v|] eqn:Ev; cbn [bind]; [|discriminate]. intros E. injection E as <-.
    now rewrite (nth_error_nth _ _ _ Ev). }
  destruct (if level <? BITS - 1 then _ else _) as [b|] in EB |- *; cbn [bind]; [|discriminate]. rewrite (EB b eq_refl).
  destruct (check _ _) as [u|]; cbn [bind]; [|discriminate].
  destruct (fv_sub _ w0) as [d|] eqn:Ed; cbn [bind]; [|discriminate].
  destruct (fv_add d w1) as [e|] eqn:Ee; cbn [bind]; [|discriminate].
  intros E. injection E as <- <- <-. cbn [fst snd]. split; [easy|].
  exists (seed_cw, ctrl_cw, if ctrl1 then fv_neg e else e).
  destruct j; cbn [pick negb fst snd].
  - exists s0, t0, x0, w0. split; [easy|]. split; [easy|]. split; [easy|]. split; [easy|].
    unfold IdpfViewSpec.ideal_level. rewrite E1. cbn [bind].
    rewrite (xor_comm (pick (negb _) s1)). rewrite (xorb_comm (fst t1)), (xorb_comm (snd t1)).
    change (nth level alpha false) with bit. fold seed_cw. fold ctrl_cw. rewrite O1, W1. cbn [bind]. rewrite Ed. cbn [bind]. rewrite Ee. reflexivity.
  - exists s1, t1, x1, w1. split; [easy|]. split; [easy|]. split; [easy|]. split; [easy|].
    unfold IdpfViewSpec.ideal_level. rewrite E0. cbn [bind].
    change (nth level alpha false) with bit. fold seed_cw. fold ctrl_cw. rewrite O0, W0. cbn [bind]. rewrite Ed. cbn [bind]. rewrite Ee. cbn [bind].
    replace (negb ctrl0) with ctrl1 by (destruct ctrl0, ctrl1; easy). reflexivity.
Qed.

Lemma gen_from_ideal j n : forall level seeds ctrls acc seeds' ctrls' acc', level + n <= length alpha ->
  xorb (fst ctrls) (snd ctrls) = true ->
  foldM gen_level (seq level n) (seeds, ctrls, acc) = Ok (seeds', ctrls', acc') ->
  exists ps masks, acc' = acc ++ ps /\
    expand_from level (pick (negb j) seeds) (pick (negb j) ctrls) ps = Ok masks /\
    ideal_from j level (pick j seeds) (pick j ctrls) masks = Ok ps.
Proof.
  induction n as [|n IH]; intros level seeds ctrls acc seeds' ctrls' acc' Hl Hx; cbn [seq foldM].
  - intros E. injection E as <- <- <-. exists [], []. now rewrite app_nil_r.
  - destruct (gen_level (seeds, ctrls, acc) level) as [[[sd ct] ac]|] eqn:E; cbn [bind]; [|discriminate]. intros E'.
    assert (Hl1 : level < length alpha) by lia. assert (Hl2 : S level + n <= length alpha) by lia.
    destruct (gen_level_ideal j _ _ _ _ _ _ _ Hl1 Hx E) as (Hx' & cw & s & t & x & w & -> & E1 & E2 & E3 & E4).
    destruct (IH (S level) sd ct _ _ _ _ Hl2 Hx' E') as (ps & masks & -> & M & I).
    exists (cw :: ps), ((pick (negb (nth level alpha false)) s, t, w) :: masks).
    rewrite <- app_assoc. split; [easy|]. cbn [IdpfViewSpec.expand_from IdpfViewSpec.ideal_from].
    rewrite E1. cbn [bind]. rewrite E2, E3. cbn [bind]. rewrite M. cbn [bind]. split; [easy|].
    rewrite E4. cbn [bind]. rewrite I. reflexivity.
Qed.

Lemma expand_from_wf (ps : list (CorrectionWord i)) : forall level seed ctrl masks, length seed = KEY ->
  Forall (fun cw => length (fst (fst cw)) = KEY) ps ->
  expand_from level seed ctrl ps = Ok masks -> length masks = length ps /\ words_from i level masks.
Proof.
  induction ps as [|cw ps IH]; intros level seed ctrl masks Hs Hp; cbn [IdpfViewSpec.expand_from].
  - intros E. injection E as <-. easy.
  - inversion_clear Hp as [|? ? Hcw Hp'].
    destruct (extend_ok i lim HO level seed ctx nonce Hs Hc) as (s & t & E & L0 & L1). rewrite E. cbn [bind].
    destruct (extend_even _ _ _ _ _ _ Hs Hc E) as [V0 V1].
    destruct (on_path (nth level alpha false) s t ctrl (fst cw)) as [x ctrl'] eqn:Ex.
    assert (Lx : length x = KEY) by (replace x with (fst (on_path (nth level alpha false) s t ctrl (fst cw))) by (now rewrite Ex); now apply on_path_len).
    pose proof (convert_post i lim HO level x ctx nonce Lx Hc) as PC.
    destruct (convert i level x ctx nonce) as [[seed' w]|]; cbn [bind]; [|discriminate]. destruct PC as [Ls Hw]. cbn [fst snd] in *.
    destruct (expand_from (S level) seed' ctrl' ps) as [rest|] eqn:Er; cbn [bind]; [|discriminate].
    intros E1. injection E1 as <-. destruct (IH _ _ _ _ Ls Hp' Er) as [Ln Hr]. cbn [length words_from]. split; [lia|].
    split; [|easy]. split; [now apply pick_len|]. split; [now destruct (nth level alpha false) | easy].
Qed.
End L.

Lemma gen_ideal alpha beta_inner beta_leaf ctx nonce rand ps k0 k1 j :
  gen_args_ok i alpha beta_inner beta_leaf ctx nonce rand ->
  idpf_gen i alpha beta_inner beta_leaf ctx nonce rand = Ok (ps, [k0; k1]) ->
  exists masks, expand i alpha ctx nonce (negb j) (pick (negb j) (k0, k1)) ps = Ok masks /\ words_wf i masks /\
    ideal_share i alpha beta_inner beta_leaf ctx nonce j (pick j (k0, k1)) masks = Ok ps.
Proof.
  intros HA E. destruct (idpf_correct i lim HO _ _ _ _ _ _ HA _ _ E) as ((Lp & Hp) & a & b & Ek & La & Lb & _).
  injection Ek as <- <-. revert E. unfold idpf_gen.
  do 4 (destruct (check _ _); cbn [bind]; [|discriminate]).
  destruct (for_range _ _ _ _) as [[[sd ct] acc]|] eqn:E; cbn [bind]; [|discriminate].
  intros E1. injection E1 as -> E0 E1. unfold for_range, range in E. rewrite Nat.sub_0_r in E.
  assert (Hl : 0 + BITS <= length alpha) by (rewrite (ga_alpha _ _ _ _ _ _ _ HA); lia).
  destruct (gen_from_ideal alpha beta_inner beta_leaf ctx nonce j _ _ _ (false, true) _ _ _ _ Hl eq_refl E)
    as (ps' & masks & Eps & M & I). cbn [app] in Eps. subst ps'.
  exists masks. rewrite E0, E1 in M, I.
  assert (C : forall b : bool, pick b (false, true) = b) by now intros [].
  rewrite C in M, I. split; [exact M|]. split; [|exact I].
  assert (HF : Forall (fun cw : CorrectionWord i => length (fst (fst cw)) = KEY) ps)
    by (apply Forall_forall; intros cw Hin; apply In_nth_error in Hin as [l Hin]; apply (Hp l cw Hin)).
  destruct (expand_from_wf alpha ctx nonce (ga_ctx _ _ _ _ _ _ _ HA) ps 0 _ _ _ (pick_len (negb j) (k0, k1) _ La Lb) HF M) as [Ln Hw].
  split; [lia | easy].
Qed.

Lemma beta_levels alpha beta_inner beta_leaf ctx nonce rand : gen_args_ok i alpha beta_inner beta_leaf ctx nonce rand ->
  forall level, level < BITS -> of_level i level VLEN (beta_at i beta_inner beta_leaf level).
Proof. intros HA level Hl. now apply (beta_of_level i _ _ _ _ _ _ HA). Qed.
End V.
