(** Proofs for C108. *)
From Verif Require Export NodeSpec.
From Verif Require Import IdpfFacts PostFacts BaseFacts CommonFacts XofFacts.
Open Scope nat_scope.

Lemma byte_split (b : Byte.byte) : Z.even (b2z (z2b (Z.land (b2z b) 254))) = true /\
  z2b (b2z (z2b (Z.land (b2z b) 254)) + (if negb (Z.land (b2z b) 1 =? 0)%Z then 1 else 0)) = b.
Proof. destruct b; vm_compute; split; reflexivity. Qed.

Lemma even_xor a b : even_seed a -> even_seed b -> even_seed (xor a b).
Proof.
  intros (x & r & -> & Hx) (y & q & -> & Hy). cbn [xor]. do 2 eexists. split; [reflexivity|].
  rewrite byte_xor_z. rewrite <- Z.negb_odd, <- Z.bit0_odd in *. rewrite Z.lxor_spec.
  now destruct (Z.testbit (b2z x) 0), (Z.testbit (b2z y) 0).
Qed.

Lemma cleared s b s' : get s 0 = Ok b -> set s 0 (z2b (Z.land (b2z b) 254)) = Ok s' ->
  even_seed s' /\ with_bit s' (negb (Z.land (b2z b) 1 =? 0)%Z) = s.
Proof.
  destruct s as [|x r]; [discriminate|]. intros E. injection E as <-. intros E. injection E as <-.
  destruct (byte_split x) as [A B]. split; [now do 2 eexists|]. unfold with_bit. now rewrite B.
Qed.

Section I.
Context (i : Idpf).
Lemma extend_with_Ok X seed ctx nonce s0 s1 t0 t1 : extend_with i X seed ctx nonce = Ok ((s0, s1), (t0, t1)) ->
  even_seed s0 /\ even_seed s1 /\ exists dst st st' st'', format_dst 1 0 0 = Ok dst /\ xof_init X seed (dst ++ ctx) nonce = Ok st /\
    xof_next X st (id_KEY_SIZE i) = Ok (with_bit s0 t0, st') /\ xof_next X st' (id_KEY_SIZE i) = Ok (with_bit s1 t1, st'').
Proof.
  unfold extend_with. intros E.
  apply bind_Ok in E. destruct E as (d & Ed & E). apply bind_Ok in E. destruct E as (st & Es & E).
  apply bind_Ok in E. destruct E as ([a st'] & Ea & E). apply bind_Ok in E. destruct E as ([b st''] & Eb & E).
  apply bind_Ok in E. destruct E as (a0 & Ga & E). apply bind_Ok in E. destruct E as (b0 & Gb & E). cbv zeta in E.
  apply bind_Ok in E. destruct E as (a' & Sa & E). apply bind_Ok in E. destruct E as (b' & Sb & E).
  injection E as <- <- <- <-. destruct (cleared _ _ _ Ga Sa) as [A1 A2]. destruct (cleared _ _ _ Gb Sb) as [B1 B2].
  split; [exact A1|]. split; [exact B1|]. exists d, st, st', st''. rewrite A2, B2. easy.
Qed.

Lemma extend_even level seed ctx nonce s t : extend i level seed ctx nonce = Ok (s, t) -> forall b, even_seed (pick b s).
Proof.
  destruct s as [s0 s1], t as [t0 t1]. unfold extend. destruct (is_inner i level); intros E; apply extend_with_Ok in E; intros []; apply E.
Qed.

Lemma gen_level_even alpha bi bl ctx nonce seeds ctrls acc level st : Forall (fun cw : CorrectionWord i => even_seed (fst (fst cw))) acc ->
  gen_level i alpha bi bl ctx nonce (seeds, ctrls, acc) level = Ok st -> Forall (fun cw : CorrectionWord i => even_seed (fst (fst cw))) (snd st).
Proof.
  intros HF E. unfold gen_level in E.
  apply bind_Ok in E. destruct E as (bit & _ & E). cbv zeta in E.
  apply bind_Ok in E. destruct E as ([s0 t0] & E0 & E). apply bind_Ok in E. destruct E as ([s1 t1] & E1 & E).
  match type of E with (let '(x0, c0) := ?a in _) = _ => destruct a as [x0 c0] end.
  match type of E with (let '(x1, c1) := ?a in _) = _ => destruct a as [x1 c1] end.
  apply bind_Ok in E. destruct E as ([? w0] & _ & E). apply bind_Ok in E. destruct E as ([? w1] & _ & E).
  apply bind_Ok in E. destruct E as (bb & _ & E). apply bind_Ok in E. destruct E as (? & _ & E).
  apply bind_Ok in E. destruct E as (d & _ & E). apply bind_Ok in E. destruct E as (w & _ & E).
  injection E as <-. cbn [snd]. apply Forall_app. split; [exact HF|]. constructor; [|constructor]. cbn [fst].
  apply even_xor; eapply extend_even; eassumption.
Qed.

Theorem gen_even alpha bi bl ctx nonce rand ps keys : idpf_gen i alpha bi bl ctx nonce rand = Ok (ps, keys) ->
  Forall (fun cw : CorrectionWord i => even_seed (fst (fst cw))) ps.
Proof.
  unfold idpf_gen. intros E. do 4 (apply bind_Ok in E; destruct E as (? & _ & E)). cbv zeta in E.
  apply bind_Ok in E. destruct E as ([[seeds ctrls] ps'] & E & E'). injection E' as <- _.
  assert (G : post (for_range 0 (id_BITS i) (firstn (SEED_SIZE (id_xof_inner i)) rand, skipn (SEED_SIZE (id_xof_inner i)) rand, (false, true), [])
     (gen_level i alpha bi bl ctx nonce)) (fun st => Forall (fun cw : CorrectionWord i => even_seed (fst (fst cw))) (snd st)) (fun _ => True)).
  { apply (post_for_range (fun _ st => Forall (fun cw : CorrectionWord i => even_seed (fst (fst cw))) (snd st))); [lia|constructor|].
    intros n [[se ct] acc] _ H. cbn [snd] in H.
    destruct (gen_level i alpha bi bl ctx nonce (se, ct, acc) n) as [st|e] eqn:EL; [|exact I]. cbn [post]. eapply gen_level_even; eassumption. }
  rewrite E in G. exact G.
Qed.

Context (lim : Z) (HO : IdpfOk i lim).
Theorem extend_split level seed ctx nonce : ctx_ok ctx -> length seed = id_KEY_SIZE i ->
  exists s0 s1 t0 t1, extend i level seed ctx nonce = Ok ((s0, s1), (t0, t1)) /\
    length s0 = id_KEY_SIZE i /\ length s1 = id_KEY_SIZE i /\ even_seed s0 /\ even_seed s1 /\
    (level < id_BITS i - 1 -> puts_out (id_xof_inner i) 0 seed ctx nonce (with_bit s0 t0) (with_bit s1 t1)) /\
    (id_BITS i - 1 <= level -> puts_out (id_xof_leaf i) 0 seed ctx nonce (with_bit s0 t0) (with_bit s1 t1)).
Proof.
  intros Hc Hs. destruct (extend_ok i lim HO level seed ctx nonce Hs Hc) as ([s0 s1] & [t0 t1] & E & L0 & L1). cbn [fst snd] in L0, L1.
  exists s0, s1, t0, t1. split; [exact E|]. split; [exact L0|]. split; [exact L1|].
  assert (W : forall s t, length (with_bit s t) = length s) by (intros [|? ?] ?; reflexivity).
  unfold extend, is_inner in E. destruct (level <? id_BITS i - 1) eqn:EL; pose proof (extend_with_Ok _ _ _ _ _ _ _ _ E) as (A & B & d & st & st' & st'' & H1 & H2 & H3 & H4).
  - apply Nat.ltb_lt in EL. split; [exact A|]. split; [exact B|]. split; [|lia]. intros _. exists d, st, st', st''. now rewrite !W, L0, L1.
  - apply Nat.ltb_ge in EL. split; [exact A|]. split; [exact B|]. split; [lia|]. intros _. exists d, st, st', st''. now rewrite !W, L0, L1.
Qed.
End I.
