(** Correctness of the IDPF. *)
From Verif Require Import IdpfSpec XofFacts SampleFacts FieldFacts PostFacts VecFacts VdafFacts.
Open Scope nat_scope.

Lemma fcast_id {P : FieldClass} (x : F P) : fcast x = x.
Proof. apply fof_val. Qed.

Lemma map_fcast_id {P : FieldClass} (l : list (F P)) : map fcast l = l.
Proof. rewrite (map_ext _ (fun x => x) fcast_id). apply map_id. Qed.

Lemma bits_eqb_eq a b : bits_eqb a b = true <-> a = b.
Proof.
  revert b. induction a as [|x a IH]; intros [|y b]; simpl; try easy.
  rewrite andb_true_iff, Bool.eqb_true_iff, IH. split; [now intros [-> ->] | intros H; now inversion H].
Qed.

Lemma mem_bits_In x l : mem_bits x l = true <-> In x l.
Proof.
  unfold mem_bits. rewrite existsb_exists. split.
  - intros (y & Hy & E). apply bits_eqb_eq in E. now subst.
  - intros H. exists x. split; [easy|]. now apply bits_eqb_eq.
Qed.

Lemma all_unique_NoDup l : all_unique l = true <-> NoDup l.
Proof.
  induction l as [|x l IH]; simpl; [split; [constructor|easy]|].
  rewrite andb_true_iff, negb_true_iff, IH. split.
  - intros [H1 H2]. constructor; [|easy]. intros H. apply mem_bits_In in H. congruence.
  - intros H. inversion H as [|? ? H1 H2]; subst. split; [|easy].
    destruct (mem_bits x l) eqn:E; [|easy]. now apply mem_bits_In in E.
Qed.

Lemma Forall2_len {A B} (R : A -> B -> Prop) l l' : Forall2 R l l' -> length l = length l'.
Proof. induction 1; simpl; congruence. Qed.

Lemma list_snoc_firstn {A} (d : A) l n : n < length l -> firstn (S n) l = firstn n l ++ [nth n l d].
Proof.
  revert n. induction l as [|x l IH]; intros n Hn; simpl in Hn; [lia|].
  destruct n; [reflexivity|]. cbn [firstn nth app]. f_equal. apply IH. lia.
Qed.

(** The payload correction makes the difference of the two outputs [b]. *)
Section Payload.
Context {P : FieldClass}.
Add Ring FringID : (@F_ring P).

Lemma payload0 (b w0 w1 : list (F P)) : length w0 = length b -> length w1 = length b ->
  zip_with fadd (zip_with fadd w0 (zip_with fadd (zip_with fsub b w0) w1)) (map fneg w1) = b.
Proof.
  revert w0 w1. induction b as [|x b IH]; intros [|y w0] [|z w1]; simpl; intros; try easy.
  f_equal; [ring | apply IH; lia].
Qed.

Lemma payload1 (b w0 w1 : list (F P)) : length w0 = length b -> length w1 = length b ->
  zip_with fadd w0 (map fneg (zip_with fadd w1 (map fneg (zip_with fadd (zip_with fsub b w0) w1)))) = b.
Proof.
  revert w0 w1. induction b as [|x b IH]; intros [|y w0] [|z w1]; simpl; intros; try easy.
  f_equal; [ring | apply IH; lia].
Qed.

Lemma zip_neg_0 (v : list (F P)) : zip_with fadd v (map fneg v) = repeat f0 (length v).
Proof. induction v; simpl; [easy|]. f_equal; [ring | easy]. Qed.

Lemma add_into_zip (y w : list (F P)) : length y = length w -> add_into y w = Ok (zip_with fadd y w).
Proof.
  revert w. induction y as [|a y IH]; intros [|b w]; simpl; intros; try easy.
  rewrite IH by lia. reflexivity.
Qed.

Lemma vec_add_zip (y w : list (F P)) : length y = length w -> vec_add y w = Ok (zip_with fadd y w).
Proof. intros H. unfold vec_add. rewrite (proj2 (Nat.eqb_eq _ _)) by easy. reflexivity. Qed.

Lemma vec_sub_zip (y w : list (F P)) : length y = length w -> vec_sub y w = Ok (zip_with fsub y w).
Proof. intros H. unfold vec_sub. rewrite (proj2 (Nat.eqb_eq _ _)) by easy. reflexivity. Qed.

Lemma zip_len (f : F P -> F P -> F P) (a b : list (F P)) n : length a = n -> length b = n -> length (zip_with f a b) = n.
Proof. intros. rewrite zip_with_length. lia. Qed.
End Payload.

Section Ok.
Context (i : Idpf) (lim : Z) (HO : IdpfOk i lim).
Notation Pi := (id_field_inner i).
Notation Pl := (id_field_leaf i).
Notation KEY := (id_KEY_SIZE i).
Notation BITS := (id_BITS i).
Notation VLEN := (id_VALUE_LEN i).

Definition E_out (e : exn) : Prop := e = OutOfFuel /\ idpf_ran_out i.

Lemma ctx_dst d ctx c a u : ctx_ok ctx -> format_dst c a u = Ok d -> (Z.of_nat (length (d ++ ctx)) < 65536)%Z.
Proof. unfold ctx_ok. intros H E. apply format_dst_length in E. rewrite app_length. lia. Qed.

Lemma extend_with_ok X seed ctx nonce : XofFor X KEY lim -> (Z.of_nat (2 * KEY) < lim)%Z -> length seed = KEY -> ctx_ok ctx ->
  exists s t, extend_with i X seed ctx nonce = Ok (s, t) /\ length (fst s) = KEY /\ length (snd s) = KEY.
Proof.
  intros HX Hl Hs Hc. unfold extend_with.
  destruct (format_dst_total 1 0 0) as [d Hd]; try lia. rewrite Hd. cbn [bind].
  destruct (xf_init _ _ _ HX seed (d ++ ctx) nonce Hs (ctx_dst _ _ _ _ _ Hc Hd)) as [st E]. rewrite E. cbn [bind].
  destruct (xf_stream _ _ _ HX _ _ _ _ E) as (s & at_ & H0 & HS). rewrite <- H0.
  rewrite HS by lia. cbn [bind]. rewrite HS by lia. cbn [bind].
  pose proof (io_key _ _ HO) as HK.
  set (a := stream_bytes s 0 KEY). set (b := stream_bytes s (0 + KEY) KEY).
  assert (Ha : length a = KEY) by apply stream_bytes_length. assert (Hb : length b = KEY) by apply stream_bytes_length.
  rewrite (get_nth a 0 x00), (get_nth b 0 x00) by lia. cbn [bind].
  rewrite !set_lt by lia. cbn [bind]. do 2 eexists. split; [reflexivity|]. cbn [fst snd]. rewrite !length_upd. easy.
Qed.

Lemma extend_ok level seed ctx nonce : length seed = KEY -> ctx_ok ctx ->
  exists s t, extend i level seed ctx nonce = Ok (s, t) /\ length (fst s) = KEY /\ length (snd s) = KEY.
Proof.
  intros Hs Hc. unfold extend. pose proof (io_lim_inner _ _ HO). pose proof (io_lim_leaf _ _ HO).
  destruct (is_inner i level); apply extend_with_ok; try easy; try lia; apply HO.
Qed.

Lemma convert_with_post X P seed ctx nonce : XofFor X KEY lim ->
  (Z.of_nat (2 * KEY + loop_bound X * ENCODED_SIZE P) < lim)%Z -> length seed = KEY -> ctx_ok ctx ->
  post (convert_with i X P seed ctx nonce) (fun r => length (fst r) = KEY /\ length (snd r) = VLEN)
    (fun e => e = OutOfFuel).
Proof.
  intros HX Hl Hs Hc. unfold convert_with.
  destruct (format_dst_total 1 0 1) as [d Hd]; try lia. rewrite Hd. cbn [bind].
  destruct (xf_init _ _ _ HX seed (d ++ ctx) nonce Hs (ctx_dst _ _ _ _ _ Hc Hd)) as [st E]. rewrite E. cbn [bind].
  destruct (xf_stream _ _ _ HX _ _ _ _ E) as (s & at_ & HS). pose proof (proj1 HS) as H0. rewrite <- H0.
  rewrite (proj2 HS) by lia. cbn [bind].
  destruct (next_vec_cases X P lim st s at_ HS VLEN (0 + KEY)) as [(v & k & _ & En & Hv) | En]; [lia | |]; rewrite En; cbn [bind].
  - cbn [post fst snd]. split; [apply stream_bytes_length | easy].
  - reflexivity.
Qed.

Lemma convert_post level seed ctx nonce : length seed = KEY -> ctx_ok ctx ->
  post (convert i level seed ctx nonce) (fun r => length (fst r) = KEY /\ of_level i level VLEN (snd r)) E_out.
Proof.
  intros Hs Hc. destruct (convert i level seed ctx nonce) as [[s v]|e] eqn:E; pose proof E as E'; unfold convert, is_inner in E;
    destruct (level <? BITS - 1) eqn:El; (apply Nat.ltb_lt in El || apply Nat.ltb_ge in El); cbn [post].
  1,3: pose proof (convert_with_post (id_xof_inner i) Pi seed ctx nonce (io_inner _ _ HO) (io_lim_inner _ _ HO) Hs Hc) as H.
  3,4: pose proof (convert_with_post (id_xof_leaf i) Pl seed ctx nonce (io_leaf _ _ HO) (io_lim_leaf _ _ HO) Hs Hc) as H.
  all: destruct (convert_with _ _ _ _ _ _) as [[s' w]|e'] in E, H; cbn [post bind fst snd] in *;
    try discriminate; inversion E; subst; unfold of_level; try tauto.
  all: split; [easy|]; now exists level, seed, ctx, nonce.
Qed.

Lemma payload level b w0 w1 : of_level i level VLEN b -> of_level i level VLEN w0 -> of_level i level VLEN w1 ->
  exists d e : FieldVec Pi Pl, fv_sub b w0 = Ok d /\ fv_add d w1 = Ok e /\ of_level i level VLEN e /\
  forall c1 : bool, exists y0 y1 : FieldVec Pi Pl, let w := if c1 then fv_neg e else e in
    (if negb c1 then fv_add_into i w0 w else Ok w0) = Ok y0 /\
    (if c1 then fv_add_into i w1 w else Ok w1) = Ok y1 /\
    of_level i level VLEN y0 /\ of_level i level VLEN y1 /\ of_level i level VLEN w /\
    fv_add y0 (fv_neg y1) = Ok b.
Proof.
  unfold of_level.
  destruct b as [b|b], w0 as [w0|w0], w1 as [w1|w1]; intros [Hl Hb] [Hl0 H0] [Hl1 H1]; try lia;
    cbn [fv_sub fv_add fv_as]; rewrite !map_fcast_id, vec_sub_zip by congruence; cbn [bind];
    (do 2 eexists; split; [reflexivity|]; cbn [fv_add fv_as]; rewrite ?map_fcast_id, vec_add_zip by (rewrite ?(zip_len _ _ _ VLEN) by easy; congruence);
     cbn [bind]; split; [reflexivity|]);
    (assert (Hz : length (zip_with fadd (zip_with fsub b w0) w1) = VLEN) by (repeat apply zip_len; easy));
    (split; [easy|]); intros [|]; cbn [negb];
    unfold fv_add_into; cbn [fv_neg fv_as]; rewrite ?map_fcast_id, ?add_into_zip by (unfold vec_neg; rewrite ?map_length; congruence);
    cbn [bind]; do 2 eexists; (split; [reflexivity|]); (split; [reflexivity|]);
    cbn [fv_neg fv_add fv_as]; rewrite ?map_fcast_id; unfold vec_neg; rewrite ?map_length;
    (split; [split; [lia|]; try apply zip_len; easy|]);
    (split; [split; [lia|]; try apply zip_len; rewrite ?map_length; easy|]);
    (split; [split; [lia|]; easy|]);
    rewrite vec_add_zip; cbn [bind]; rewrite ?payload0, ?payload1 by congruence; try reflexivity;
    rewrite ?map_length; repeat (rewrite (zip_len _ _ _ VLEN)); rewrite ?map_length; try easy; congruence.
Qed.

Definition cw_wf (level : nat) (cw : CorrectionWord i) : Prop :=
  length (fst (fst cw)) = KEY /\ of_level i level VLEN (snd cw).

Lemma add_into_post level y w : of_level i level VLEN y -> of_level i level VLEN w ->
  exists r, fv_add_into i y w = Ok r /\ of_level i level VLEN r.
Proof.
  unfold of_level. destruct y as [y|y], w as [w|w]; intros [? ?] [? ?]; try lia; unfold fv_add_into; cbn [fv_as];
    rewrite map_fcast_id, add_into_zip by congruence; cbn [bind]; eexists; (split; [reflexivity|]); (split; [lia|]);
    now apply zip_len.
Qed.

Lemma eval_next_post seed c cw level bit ctx nonce : length seed = KEY -> ctx_ok ctx -> cw_wf level cw ->
  post (eval_next i seed c cw level bit ctx nonce)
    (fun r => length (fst (fst r)) = KEY /\ of_level i level VLEN (snd r)) E_out.
Proof.
  intros Hs Hc [Hk Hw]. destruct cw as [[scw ccw] w]. cbn [fst snd] in Hk, Hw. unfold eval_next.
  destruct (extend_ok level seed ctx nonce Hs Hc) as (s & t & E & H0 & H1). rewrite E. cbn [bind].
  set (st := if c then _ else _).
  assert (Hst : length (fst (fst st)) = KEY /\ length (snd (fst st)) = KEY).
  { subst st. destruct c; cbn [fst snd]; [|easy]. rewrite !xor_length. lia. }
  destruct st as [s' t']. cbn [fst snd] in Hst.
  eapply post_bind; [apply convert_post; [|easy]; destruct bit; cbn [pick]; easy|].
  intros [ns y] _ [Hn Hy]. cbn [fst snd] in *.
  destruct (pick bit t').
  - destruct (add_into_post level y w Hy Hw) as (r & Er & Hr). rewrite Er. cbn [bind post fst snd]. easy.
  - cbn [bind post fst snd]. easy.
Qed.

Context (alpha : list bool) (beta_inner : list (list (F Pi))) (beta_leaf : list (F Pl)) (ctx nonce rand : bytes)
  (HA : gen_args_ok i alpha beta_inner beta_leaf ctx nonce rand).

Lemma beta_of_level level : level < BITS -> of_level i level VLEN (beta_at i beta_inner beta_leaf level) /\
  (if level <? BITS - 1 then let* v := get beta_inner level in Ok (Inner v) else Ok (Leaf beta_leaf))
  = Ok (beta_at i beta_inner beta_leaf level) /\ fv_len (beta_at i beta_inner beta_leaf level) = VLEN.
Proof.
  intros Hl. pose proof (ga_inner _ _ _ _ _ _ _ HA) as Hin. pose proof (ga_leaf_len _ _ _ _ _ _ _ HA) as Hle.
  unfold beta_at. destruct (level <? BITS - 1) eqn:E; unfold of_level, fv_len.
  - apply Nat.ltb_lt in E. rewrite (get_nth _ _ []) by lia.
    assert (length (nth level beta_inner []) = VLEN).
    { pose proof (ga_inner_len _ _ _ _ _ _ _ HA) as H. rewrite Forall_forall in H. apply H, nth_In. lia. }
    easy.
  - apply Nat.ltb_ge in E. easy.
Qed.

Lemma level_step seeds ctrls acc level : level < BITS ->
  length (fst seeds) = KEY -> length (snd seeds) = KEY -> xorb (fst ctrls) (snd ctrls) = true ->
  post (gen_level i alpha beta_inner beta_leaf ctx nonce (seeds, ctrls, acc) level)
    (fun '(seeds', ctrls', acc') => exists cw, acc' = acc ++ [cw] /\ cw_wf level cw /\
       length (fst seeds') = KEY /\ length (snd seeds') = KEY /\ xorb (fst ctrls') (snd ctrls') = true /\
       (exists y0 y1,
          eval_next i (fst seeds) (fst ctrls) cw level (nth level alpha false) ctx nonce = Ok (fst seeds', fst ctrls', y0) /\
          eval_next i (snd seeds) (snd ctrls) cw level (nth level alpha false) ctx nonce = Ok (snd seeds', snd ctrls', y1) /\
          of_level i level VLEN y0 /\ of_level i level VLEN y1 /\
          fv_add y0 (fv_neg y1) = Ok (beta_at i beta_inner beta_leaf level)) /\
       eval_next i (fst seeds) (fst ctrls) cw level (negb (nth level alpha false)) ctx nonce
       = eval_next i (snd seeds) (snd ctrls) cw level (negb (nth level alpha false)) ctx nonce) E_out.
Proof.
  destruct seeds as [sd0 sd1], ctrls as [c0 c1]. cbn [fst snd]. intros Hl Hs0 Hs1 Hx. unfold gen_level.
  pose proof (ga_ctx _ _ _ _ _ _ _ HA) as Hc. cbn [fst snd].
  rewrite (get_nth alpha level false) by (rewrite (ga_alpha _ _ _ _ _ _ _ HA); lia). cbn [bind].
  set (bit := nth level alpha false).
  destruct (extend_ok level sd0 ctx nonce Hs0 Hc) as ([s00 s01] & [t00 t01] & E0 & H00 & H01).
  destruct (extend_ok level sd1 ctx nonce Hs1 Hc) as ([s10 s11] & [t10 t11] & E1 & H10 & H11).
  rewrite E0. cbn [bind]. rewrite E1. cbn [bind fst snd] in *.
  set (seed_cw := xor (pick (negb bit) (s00, s01)) (pick (negb bit) (s10, s11))).
  set (ctrl_cw := (xorb (xorb t00 t10) (negb bit), xorb (xorb t01 t11) bit)).
  assert (Hcw : length seed_cw = KEY) by (subst seed_cw; rewrite xor_length; destruct bit; cbn [pick negb fst snd]; lia).
  set (n0 := if c0 then _ else _). set (n1 := if c1 then (xor (pick bit (s10, s11)) seed_cw, _) else _).
  assert (Hn0 : length (fst n0) = KEY) by (subst n0; destruct c0, bit; cbn [pick fst snd]; rewrite ?xor_length; lia).
  assert (Hn1 : length (fst n1) = KEY) by (subst n1; destruct c1, bit; cbn [pick fst snd]; rewrite ?xor_length; lia).
  assert (Hn : xorb (snd n0) (snd n1) = true).
  { subst n0 n1 ctrl_cw. destruct c0, c1; try discriminate; destruct bit; cbn [pick fst snd];
      destruct t00, t01, t10, t11; reflexivity. }
  destruct n0 as [x0 ctrl0] eqn:En0, n1 as [x1 ctrl1] eqn:En1. cbn [fst snd] in Hn0, Hn1, Hn. subst n0 n1.
  eapply post_bind; [now apply convert_post|]. intros [seed0 w0] Ew0 [Hk0 Hw0]. cbn [fst snd] in *.
  eapply post_bind; [now apply convert_post|]. intros [seed1 w1] Ew1 [Hk1 Hw1]. cbn [fst snd] in *.
  destruct (beta_of_level level Hl) as (Hb & Eb & Lb). rewrite Eb. cbn [bind]. rewrite Lb, Nat.eqb_refl. cbn [check bind].
  destruct (payload level _ w0 w1 Hb Hw0 Hw1) as (d & e & Ed & Ee & He & Hp). rewrite Ed. cbn [bind]. rewrite Ee. cbn [bind post].
  destruct (Hp ctrl1) as (y0 & y1 & Hy0 & Hy1 & Oy0 & Oy1 & Ow & Hsum).
  eexists. split; [reflexivity|]. split; [split; cbn [fst snd]; easy|]. cbn [fst snd].
  split; [easy|]. split; [easy|]. split; [easy|].
  assert (Hctrl : ctrl0 = negb ctrl1) by (destruct ctrl0, ctrl1; easy). rewrite <- Hctrl in Hy0.
  split.
  - exists y0, y1. unfold eval_next. rewrite E0, E1. cbn [bind fst snd].
    assert (A : forall (c : bool) (a b ta tb : _) x ct,
      (if c then (xor (pick bit (a, b)) seed_cw, xorb (pick bit (ta, tb)) (pick bit ctrl_cw)) else (pick bit (a, b), pick bit (ta, tb))) = (x, ct) ->
      (let '(s, t) := if c then ((xor a seed_cw, xor b seed_cw), (xorb ta (fst ctrl_cw), xorb tb (snd ctrl_cw))) else ((a, b), (ta, tb)) in
       (pick bit s, pick bit t)) = (x, ct)).
    { intros c a b ta tb x ct. destruct c, bit; cbn [pick fst snd]; easy. }
    pose proof (A _ _ _ _ _ _ _ En0) as A0. pose proof (A _ _ _ _ _ _ _ En1) as A1.
    destruct (if c0 then _ else _) as [s t] in A0 |- *. destruct (if c1 then ((xor s10 seed_cw, _), _) else _) as [s' t'] in A1 |- *.
    injection A0 as -> ->. injection A1 as -> ->. rewrite Ew0, Ew1. cbn [bind].
    rewrite Hy0, Hy1. cbn [bind]. auto.
  - unfold eval_next. rewrite E0, E1. cbn [bind fst snd].
    assert (G : (let '(s, t) := if c0 then ((xor s00 seed_cw, xor s01 seed_cw), (xorb t00 (fst ctrl_cw), xorb t01 (snd ctrl_cw))) else ((s00, s01), (t00, t01)) in
                 (pick (negb bit) s, pick (negb bit) t)) =
                (let '(s, t) := if c1 then ((xor s10 seed_cw, xor s11 seed_cw), (xorb t10 (fst ctrl_cw), xorb t11 (snd ctrl_cw))) else ((s10, s11), (t10, t11)) in
                 (pick (negb bit) s, pick (negb bit) t))).
    { subst seed_cw ctrl_cw. destruct c0, c1; try discriminate; destruct bit; cbn [pick negb fst snd].
      1: rewrite (xor_comm s00 s10), (xor_comm s00 (xor _ _)). 
      all: try (rewrite (xor_comm s01 (xor _ _)), (xor_comm s01 s11)); rewrite ?xor_cancel by lia;
        try (rewrite (xor_comm _ (xor _ _)), ?xor_cancel by lia);
        f_equal; destruct t00, t01, t10, t11; reflexivity. }
    destruct (if c0 then _ else _) as [s t] in G |- *. destruct (if c1 then ((xor s10 seed_cw, _), _) else _) as [s' t'] in G |- *.
    injection G as -> ->. reflexivity.
Qed.

(** The loop of eval over the levels of one prefix. *)
Definition walk (j : nat) (ps : list (CorrectionWord i)) (key : bytes) (bits : list bool) (n : nat)
  : res (bytes * bool * FieldVec Pi Pl) :=
  for_range 0 n (key, negb (j =? 0), Inner []) (fun '(seed, ctrl, _) current_level =>
    let* bit := get bits current_level in
    let* cw := get ps current_level in
    eval_next i seed ctrl cw current_level bit ctx nonce).

Lemma walk_S j ps key bits n : walk j ps key bits (S n) =
  let* (seed, ctrl, _) := walk j ps key bits n in
  let* bit := get bits n in
  let* cw := get ps n in
  eval_next i seed ctrl cw n bit ctx nonce.
Proof.
  unfold walk. rewrite for_range_S by lia. apply bind_ext. intros [[seed ctrl] y]. reflexivity.
Qed.

Lemma walk_post j ps key bits n : length key = KEY -> ctx_ok ctx -> n <= length bits -> n <= length ps ->
  (forall l cw, l < n -> nth_error ps l = Some cw -> cw_wf l cw) ->
  post (walk j ps key bits n) (fun r => length (fst (fst r)) = KEY /\ (0 < n -> of_level i (n - 1) VLEN (snd r))) E_out.
Proof.
  intros Hk Hc. induction n as [|n IH]; intros Hb Hp Hw.
  - cbn. split; [easy|lia].
  - rewrite walk_S. eapply post_bind; [apply IH; try lia; intros; apply Hw; [lia|easy]|].
    intros [[seed ctrl] y] _ [H _]. cbn [fst snd] in H.
    rewrite (get_nth bits n false) by lia. cbn [bind].
    destruct (nth_error ps n) as [cw|] eqn:E; [|apply nth_error_None in E; lia].
    rewrite (proj2 (get_Ok ps n cw) E). cbn [bind].
    eapply post_weak; [apply eval_next_post; [easy|easy|apply Hw; [lia|easy]]| |easy].
    intros r _ [H1 H2]. split; [easy|]. intros _. now replace (S n - 1) with n by lia.
Qed.

Definition gkey0 : bytes := firstn (SEED_SIZE (id_xof_inner i)) rand.
Definition gkey1 : bytes := skipn (SEED_SIZE (id_xof_inner i)) rand.

Lemma gkey_len : length gkey0 = KEY /\ length gkey1 = KEY.
Proof.
  pose proof (ga_rand _ _ _ _ _ _ _ HA) as H. unfold id_RAND_SIZE in H. unfold gkey0, gkey1, id_KEY_SIZE.
  rewrite firstn_length, skipn_length. lia.
Qed.

(** What is known after the first [n] levels of gen. *)
Definition gen_inv (n : nat) (st : (bytes * bytes) * (bool * bool) * list (CorrectionWord i)) : Prop :=
  let '(seeds, ctrls, acc) := st in
  length acc = n /\ length (fst seeds) = KEY /\ length (snd seeds) = KEY /\ xorb (fst ctrls) (snd ctrls) = true /\
  (forall l cw, nth_error acc l = Some cw -> cw_wf l cw) /\
  forall rest bits, n <= length bits ->
    (firstn n bits = firstn n alpha -> exists y0 y1,
       walk 0 (acc ++ rest) gkey0 bits n = Ok (fst seeds, fst ctrls, y0) /\
       walk 1 (acc ++ rest) gkey1 bits n = Ok (snd seeds, snd ctrls, y1) /\
       (0 < n -> fv_add y0 (fv_neg y1) = Ok (beta_at i beta_inner beta_leaf (n - 1)))) /\
    (firstn n bits <> firstn n alpha -> walk 0 (acc ++ rest) gkey0 bits n = walk 1 (acc ++ rest) gkey1 bits n).

Lemma gen_inv_step n st : n < BITS -> gen_inv n st ->
  post (gen_level i alpha beta_inner beta_leaf ctx nonce st n) (gen_inv (S n)) E_out.
Proof.
  destruct st as [[seeds ctrls] acc]. intros Hn (Hla & Hs0 & Hs1 & Hx & Hw & HI).
  eapply post_weak; [now apply level_step| |easy].
  intros [[seeds' ctrls'] acc'] _ (cw & -> & Hcw & Hs0' & Hs1' & Hx' & (y0 & y1 & E0 & E1 & O0 & O1 & Hsum) & Hlose).
  cbn [gen_inv]. split; [rewrite app_length; cbn; lia|]. split; [easy|]. split; [easy|]. split; [easy|]. split.
  - intros l c Hl. destruct (Nat.lt_ge_cases l (length acc)).
    + rewrite nth_error_app1 in Hl by easy. now apply Hw.
    + rewrite nth_error_app2 in Hl by easy. destruct (l - length acc) as [|k] eqn:Ek.
      * injection Hl as <-. now replace l with n by lia.
      * destruct k; discriminate.
  - intros rest bits Hb. rewrite <- app_assoc. cbn [app].
    destruct (HI (cw :: rest) bits ltac:(lia)) as [Hon Hoff].
    assert (Hg : get (acc ++ cw :: rest) n = Ok cw).
    { apply get_Ok. rewrite nth_error_app2 by lia. now rewrite Hla, Nat.sub_diag. }
    pose proof (ga_alpha _ _ _ _ _ _ _ HA) as Hal.
    rewrite !walk_S, Hg, (get_nth bits n false) by lia.
    rewrite (list_snoc_firstn false bits n), (list_snoc_firstn false alpha n) by lia.
    destruct (list_eq_dec Bool.bool_dec (firstn n bits) (firstn n alpha)) as [He|He].
    + destruct (Hon He) as (z0 & z1 & W0 & W1 & _). rewrite W0, W1. cbn [bind].
      destruct (Bool.bool_dec (nth n bits false) (nth n alpha false)) as [Hb'|Hb'].
      * rewrite Hb', He. split; [intros _|now intros []].
        exists y0, y1. split; [exact E0|]. split; [exact E1|]. intros _. now replace (S n - 1) with n by lia.
      * assert (Hneg : nth n bits false = negb (nth n alpha false)) by (destruct (nth n bits false), (nth n alpha false); easy).
        rewrite Hneg. split; [intros H; apply app_inj_tail in H as [_ H]; now destruct (nth n alpha false)|].
        intros _. exact Hlose.
    + split; [intros H; now apply app_inj_tail in H as [H _]|]. intros _. now rewrite (Hoff He).
Qed.

Definition gen_all (n : nat) (st : (bytes * bytes) * (bool * bool) * list (CorrectionWord i)) : Prop :=
  gen_inv n st /\ forall m, m <= n -> exists seeds ctrls, gen_inv m (seeds, ctrls, firstn m (snd st)).

Lemma gen_post : post (idpf_gen i alpha beta_inner beta_leaf ctx nonce rand)
  (fun '(ps, keys) => keys = [gkey0; gkey1] /\ exists seeds ctrls, gen_all BITS (seeds, ctrls, ps)) E_out.
Proof.
  unfold idpf_gen. rewrite (ga_alpha _ _ _ _ _ _ _ HA), (ga_inner _ _ _ _ _ _ _ HA), (ga_rand _ _ _ _ _ _ _ HA), (ga_nonce _ _ _ _ _ _ _ HA).
  rewrite !Nat.eqb_refl. cbn [check bind].
  eapply post_bind; [apply (post_for_range gen_all); [lia| |]|].
  - assert (H : gen_inv 0 ((gkey0, gkey1), (false, true), [])).
    { cbn [gen_inv fst snd]. pose proof gkey_len as [? ?]. split; [easy|]. split; [easy|]. split; [easy|]. split; [easy|]. split.
      + intros [|l] cw Hd; discriminate.
      + intros rest bits _. cbn [firstn]. split; [|easy]. intros _. do 2 eexists. split; [reflexivity|]. split; [reflexivity|]. lia. }
    split; [exact H|]. intros m Hm. replace m with 0 by lia. eexists _, _. exact H.
  - intros n st [_ Hn] [H Hall].
    eapply post_weak; [apply gen_inv_step; [exact Hn | exact H]| |easy].
    intros st' Est H'. split; [exact H'|]. intros m Hm.
    destruct st as [[seeds ctrls] acc], st' as [[seeds' ctrls'] acc']. cbn [snd] in *.
    destruct (Nat.eq_dec m (S n)) as [->|].
    + exists seeds', ctrls'. rewrite firstn_all2; [exact H'|]. destruct H' as [H' _]. lia.
    + assert (Hacc : firstn m acc' = firstn m acc).
      { destruct H as (Hla & Hs0 & Hs1 & Hx & _).
        pose proof (post_Ok _ _ _ _ (level_step seeds ctrls acc n Hn Hs0 Hs1 Hx) Est) as HL. cbv beta iota in HL.
        destruct HL as (cw & -> & _). rewrite firstn_app. replace (m - length acc) with 0 by lia.
        cbn [firstn]. apply app_nil_r. }
      rewrite Hacc. apply Hall. lia.
  - intros [[seeds ctrls] ps] _ H. cbn [post]. split; [reflexivity|]. exists seeds, ctrls. exact H.
Qed.

Lemma eval_prefix_walk j ps key level prefix : length prefix = S level ->
  eval_prefix i j ps key (Z.of_nat level) ctx nonce prefix =
  let* (_, _, y) := walk j ps key prefix (S level) in Ok (if j =? 0 then y else fv_neg y).
Proof.
  intros Hl. unfold eval_prefix, walk. rewrite (proj2 (Z.eqb_eq _ _)) by lia. cbn [check bind].
  replace (Z.to_nat (Z.of_nat level + 1)) with (S level) by lia. reflexivity.
Qed.

Lemma eval_mapM j ps key level prefixes c nn : idpf_eval i j ps key level prefixes c nn =
  let* _ := check (j <? id_SHARES) (ValueError "aggregator id out of range") in
  let* _ := check ((0 <=? level) && (level <? Z.of_nat BITS))%Z (ValueError "level out of range") in
  let* _ := check (all_unique prefixes) (ValueError "prefixes must be unique") in
  mapM (eval_prefix i j ps key level c nn) prefixes.
Proof.
  unfold idpf_eval. do 3 (apply bind_ext; intros [] _).
  change (mapM (eval_prefix i j ps key level c nn) prefixes) with (bind (Ok ([] : list (FieldVec Pi Pl))) (fun _ => mapM (eval_prefix i j ps key level c nn) prefixes)).
  cbn [bind].
  assert (G : forall l acc, foldM (fun out_share prefix => let* y := eval_prefix i j ps key level c nn prefix in Ok (out_share ++ [y])) l acc
    = let* ys := mapM (eval_prefix i j ps key level c nn) l in Ok (acc ++ ys)).
  { induction l as [|x l IH]; intros acc; cbn [foldM mapM]; [cbn [bind]; now rewrite app_nil_r|].
    rewrite !bind_assoc. apply bind_ext. intros y _. cbn [bind]. rewrite IH, bind_assoc. apply bind_ext. intros ys _. cbn [bind].
    now rewrite <- app_assoc. }
  rewrite G. cbn [app]. apply bind_ret.
Qed.

Lemma eval_ok_args j ps key level prefixes : j < 2 -> level < BITS -> NoDup prefixes ->
  idpf_eval i j ps key (Z.of_nat level) prefixes ctx nonce = mapM (eval_prefix i j ps key (Z.of_nat level) ctx nonce) prefixes.
Proof.
  intros Hj Hl Hd. rewrite eval_mapM. rewrite (proj2 (Nat.ltb_lt _ _)) by (unfold id_SHARES; lia).
  rewrite (proj2 (Z.leb_le _ _)), (proj2 (Z.ltb_lt _ _)), (proj2 (all_unique_NoDup _)) by (easy || lia). reflexivity.
Qed.

Lemma neg_of_level level v : of_level i level VLEN v -> of_level i level VLEN (fv_neg v).
Proof. destruct v; cbn [of_level fv_neg]; unfold vec_neg; now rewrite map_length. Qed.

Lemma fv_add_neg level v : of_level i level VLEN v -> fv_add v (fv_neg v) = Ok (zero_at i level VLEN).
Proof.
  destruct v as [v|v]; cbn [of_level fv_neg fv_add fv_as]; intros [H1 H2]; rewrite map_fcast_id;
    rewrite vec_add_zip by (unfold vec_neg; now rewrite map_length); unfold vec_neg; rewrite zip_neg_0; cbn [bind]; unfold zero_at.
  - rewrite (proj2 (Nat.ltb_lt _ _)) by lia. now rewrite H2.
  - rewrite (proj2 (Nat.ltb_ge _ _)) by lia. now rewrite H2.
Qed.

(** C34 *)
Lemma idpf_correct ps keys : idpf_gen i alpha beta_inner beta_leaf ctx nonce rand = Ok (ps, keys) ->
  idpf_public_wf i ps /\ exists k0 k1, keys = [k0; k1] /\ length k0 = KEY /\ length k1 = KEY /\ rand = k0 ++ k1 /\
  forall level prefixes, level < BITS -> NoDup prefixes -> Forall (fun x => length x = S level) prefixes ->
  post (idpf_eval i 0 ps k0 (Z.of_nat level) prefixes ctx nonce)
    (fun out0 => post (idpf_eval i 1 ps k1 (Z.of_nat level) prefixes ctx nonce)
       (fun out1 => length out0 = length prefixes /\ length out1 = length prefixes /\
          Forall (of_level i level VLEN) out0 /\ Forall (of_level i level VLEN) out1 /\
          forall k d, k < length prefixes ->
            fv_add (nth k out0 d) (nth k out1 d)
            = Ok (point_value i alpha beta_inner beta_leaf level (nth k prefixes []))) E_out) E_out.
Proof.
  intros Hgen. pose proof gen_post as Hp. rewrite Hgen in Hp. destruct Hp as (-> & seeds & ctrls & (Hl & _ & _ & _ & Hw & _) & Hall). cbn [snd] in Hall.
  pose proof gkey_len as [K0 K1].
  split; [split; easy|]. exists gkey0, gkey1. split; [easy|]. split; [easy|]. split; [easy|].
  split; [symmetry; apply firstn_skipn|].
  intros level prefixes Hlev Hnd Hpre. rewrite !eval_ok_args by (easy || lia).
  assert (HP : forall j key, length key = KEY -> post (mapM (eval_prefix i j ps key (Z.of_nat level) ctx nonce) prefixes)
    (fun out => Forall2 (fun x y => eval_prefix i j ps key (Z.of_nat level) ctx nonce x = Ok y /\ of_level i level VLEN y) prefixes out) E_out).
  { intros j key Hk. apply post_mapM. intros x Hx'. rewrite Forall_forall in Hpre. specialize (Hpre x Hx').
    rewrite eval_prefix_walk by easy.
    pose proof (walk_post j ps key x (S level) Hk (ga_ctx _ _ _ _ _ _ _ HA) ltac:(lia) ltac:(lia)
      (fun l cw _ H => Hw l cw H)) as HW.
    destruct (walk j ps key x (S level)) as [[[s c] y]|e]; cbn [bind post fst snd] in *; [|easy].
    split; [easy|]. destruct HW as [_ HW]. specialize (HW ltac:(lia)). replace (S level - 1) with level in HW by lia.
    destruct (j =? 0); [easy | now apply neg_of_level]. }
  eapply post_weak; [apply (HP 0 gkey0 K0)| |easy]. intros out0 _ F0.
  eapply post_weak; [apply (HP 1 gkey1 K1)| |easy]. intros out1 _ F1.
  pose proof (Forall2_len _ _ _ F0) as L0. pose proof (Forall2_len _ _ _ F1) as L1.
  split; [easy|]. split; [easy|]. split; [|split].
  { clear - F0. induction F0 as [|x y l l' [_ H] F IH]; now constructor. }
  { clear - F1. induction F1 as [|x y l l' [_ H] F IH]; now constructor. }
  intros k d Hk.
  assert (G0 : forall o l out0, Forall2 (fun x y => eval_prefix i o ps (if o =? 0 then gkey0 else gkey1) (Z.of_nat level) ctx nonce x = Ok y /\ of_level i level VLEN y) l out0 ->
    k < length l -> eval_prefix i o ps (if o =? 0 then gkey0 else gkey1) (Z.of_nat level) ctx nonce (nth k l []) = Ok (nth k out0 d) /\ of_level i level VLEN (nth k out0 d)).
  { clear. intros o l out F. revert k. induction F as [|x y l l' H F IH]; intros k Hk; [cbn in Hk; lia|].
    destruct k; [exact H|]. cbn [nth]. apply IH. cbn in Hk. lia. }
  destruct (G0 0 _ _ F0 Hk) as [A0 O0]. destruct (G0 1 _ _ F1 Hk) as [A1 O1]. clear G0 F0 F1. cbn [Nat.eqb] in A0, A1.
  rewrite Forall_forall in Hpre. assert (Hlen : length (nth k prefixes []) = S level) by (apply Hpre, nth_In; easy).
  set (pre := nth k prefixes []) in *.
  rewrite eval_prefix_walk in A0, A1 by easy. cbn [Nat.eqb] in A0, A1.
  destruct (Hall (S level) ltac:(lia)) as (seeds' & ctrls' & (_ & _ & _ & _ & _ & HI)).
  destruct (HI (skipn (S level) ps) pre ltac:(lia)) as [Hon Hoff]. rewrite firstn_skipn in Hon, Hoff.
  rewrite (firstn_all2 pre) in Hon, Hoff by lia. unfold point_value.
  destruct (list_eq_dec Bool.bool_dec pre (firstn (S level) alpha)) as [He|He].
  - destruct (Hon He) as (y0 & y1 & W0 & W1 & Hs). rewrite W0 in A0. rewrite W1 in A1. cbn [bind] in A0, A1.
    injection A0 as <-. injection A1 as <-. rewrite Hs by lia. now replace (S level - 1) with level by lia.
  - rewrite (Hoff He) in A0. destruct (walk 1 ps gkey1 pre (S level)) as [[[s c] y]|e]; [|discriminate]. cbn [bind] in A0, A1.
    injection A0 as E0. injection A1 as E1. rewrite <- E1, <- E0 in *. now apply fv_add_neg.
Qed.
End Ok.
