(** Proofs for C94: a Poplar1 report verified twice at the same level. *)
From Verif Require Export ReuseSpec.
From Verif Require Import Poplar1Corr Poplar1Facts Poplar1Spec PostFacts VecFacts FieldFacts BaseFacts.
Open Scope nat_scope.

Section R.
Context {P : FieldClass}.
Add Ring FringRU : (@F_ring P).

Lemma path_rand_one x y level m (r : list (F P)) : length x = S level -> length y = S level -> x <> y -> length r = 1 ->
  fsub (path_rand [x] level m r) (path_rand [y] level m r) = which_prefix x y m (nth 0 r f0).
Proof.
  intros Lx Ly N Lr. destruct r as [|r0 [|]]; try discriminate. unfold path_rand, which_prefix. cbn [map dot zip_with nth]. rewrite Lx, Ly.
  destruct (list_eq_dec Bool.bool_dec x _) as [E|E], (list_eq_dec Bool.bool_dec y _) as [E'|E']; [congruence| | |]; unfold dot; cbn; ring.
Qed.
Lemma mask_diff (a b x y z z' : F P) : z = fadd (fadd a b) x -> z' = fadd (fadd a b) y -> fsub z z' = fsub x y.
Proof. intros -> ->. ring. Qed.
End R.

Section C.
Context (p : Poplar1) (lim : Z) (HO : Poplar1Ok p lim).
Notation Pi := (id_field_inner (p1_idpf p)).
Notation Pl := (id_field_leaf (p1_idpf p)).
Notation BITS := (id_BITS (p1_idpf p)).
Context (ctx : bytes) (m : list bool) (nonce rand : bytes) (ps : Poplar1PublicShare p) (is0 is1 : Poplar1InputShare p).
Context (Hc : ctx_ok ctx) (Hm : length m = BITS) (Hn : length nonce = p1_NONCE_SIZE) (Hr : length rand = p1_RAND_SIZE p).
Context (HS : p1_shard p ctx m nonce rand = Ok (ps, [is0; is1])).
Context (key : bytes) (level : nat) (prefixes prefixes' : list (list bool)).
Context (H1 : level < BITS) (N : NoDup prefixes) (N' : NoDup prefixes')
  (W : Forall (fun x => length x = S level) prefixes) (W' : Forall (fun x => length x = S level) prefixes')
  (L : length prefixes' = length prefixes) (Hk : length key = SEED_SIZE (p1_xof p)) (Hl : (Z.of_nat level < 65536)%Z).

Theorem reuse_inner s0 s1 t0 t1 s0' s1' t0' t1' : level < BITS - 1 ->
  real_messages p key ctx (Z.of_nat level, prefixes) nonce ps is0 is1 = Ok [s0; s1; t0; t1] ->
  real_messages p key ctx (Z.of_nat level, prefixes') nonce ps is0 is1 = Ok [s0'; s1'; t0'; t1'] ->
  exists r z z', verify_rand_of p Pi key ctx nonce (Z.of_nat level) (length prefixes) = Ok r /\
    p1_verifier_shares_to_message p ctx (Z.of_nat level, prefixes) [s0; s1] = Ok (Some (Inner z)) /\
    p1_verifier_shares_to_message p ctx (Z.of_nat level, prefixes') [s0'; s1'] = Ok (Some (Inner z')) /\
    fsub (nth 0 z f0) (nth 0 z' f0) = fsub (path_rand prefixes level m r) (path_rand prefixes' level m r).
Proof.
  intros Hi E E'. pose proof (shard_post1 p lim HO 0 ctx m nonce rand Hc Hm Hn Hr) as HR. rewrite HS in HR. cbn [post] in HR.
  destruct HR as (k0 & k1 & c0 & c1 & ss & ks & kl & ci0 & ci1 & cl0 & cl1 & oi0 & oi1 & ol0 & ol1 & R).
  pose proof (r1_iss _ _ _ _ _ _ _ _ _ _ _ _ _ _ _ _ _ _ _ _ _ _ R) as I. injection I as -> ->.
  destruct (r1_oi _ _ _ _ _ _ _ _ _ _ _ _ _ _ _ _ _ _ _ _ _ _ R) as (dst & D & X0 & X1).
  destruct (r1_len_i _ _ _ _ _ _ _ _ _ _ _ _ _ _ _ _ _ _ _ _ _ _ R) as [A0 A1].
  pose proof (corr_inner p lim HO _ _ _ _ _ _ _ _ _ _ _ _ _ _ _ _ _ _ _ _ _ R Hc Hm Hn key level prefixes
    _ _ _ _ cl0 cl1 dst _ _ Hi N W Hk Hl A0 A1 D X0 X1) as Q.
  pose proof (corr_inner p lim HO _ _ _ _ _ _ _ _ _ _ _ _ _ _ _ _ _ _ _ _ _ R Hc Hm Hn key level prefixes'
    _ _ _ _ cl0 cl1 dst _ _ Hi N' W' Hk Hl A0 A1 D X0 X1) as Q'.
  rewrite E in Q. rewrite E' in Q'. cbn [post] in Q, Q'.
  destruct Q as (r & Er & u0 & u1 & v0 & v1 & z & M1 & M2 & M3 & _). destruct Q' as (r' & Er' & u0' & u1' & v0' & v1' & z' & M1' & M2' & M3' & _).
  injection M1 as -> -> _ _. injection M1' as -> -> _ _. rewrite L in Er'. rewrite Er in Er'. injection Er' as <-.
  exists r, z, z'. split; [exact Er|]. split; [exact M2|]. split; [exact M2'|]. exact (mask_diff _ _ _ _ _ _ M3 M3').
Qed.

Theorem reuse_leaf s0 s1 t0 t1 s0' s1' t0' t1' : BITS - 1 <= level ->
  real_messages p key ctx (Z.of_nat level, prefixes) nonce ps is0 is1 = Ok [s0; s1; t0; t1] ->
  real_messages p key ctx (Z.of_nat level, prefixes') nonce ps is0 is1 = Ok [s0'; s1'; t0'; t1'] ->
  exists r z z', verify_rand_of p Pl key ctx nonce (Z.of_nat level) (length prefixes) = Ok r /\
    p1_verifier_shares_to_message p ctx (Z.of_nat level, prefixes) [s0; s1] = Ok (Some (Leaf z)) /\
    p1_verifier_shares_to_message p ctx (Z.of_nat level, prefixes') [s0'; s1'] = Ok (Some (Leaf z')) /\
    fsub (nth 0 z f0) (nth 0 z' f0) = fsub (path_rand prefixes level m r) (path_rand prefixes' level m r).
Proof.
  intros Hi E E'. pose proof (shard_post1 p lim HO 0 ctx m nonce rand Hc Hm Hn Hr) as HR. rewrite HS in HR. cbn [post] in HR.
  destruct HR as (k0 & k1 & c0 & c1 & ss & ks & kl & ci0 & ci1 & cl0 & cl1 & oi0 & oi1 & ol0 & ol1 & R).
  pose proof (r1_iss _ _ _ _ _ _ _ _ _ _ _ _ _ _ _ _ _ _ _ _ _ _ R) as I. injection I as -> ->.
  destruct (r1_ol _ _ _ _ _ _ _ _ _ _ _ _ _ _ _ _ _ _ _ _ _ _ R) as (dst & D & X0 & X1).
  destruct (r1_len_l _ _ _ _ _ _ _ _ _ _ _ _ _ _ _ _ _ _ _ _ _ _ R) as [A0 A1].
  pose proof (corr_leaf p lim HO _ _ _ _ _ _ _ _ _ _ _ _ _ _ _ _ _ _ _ _ _ R Hc Hm Hn key level prefixes
    _ _ ci0 ci1 _ _ dst _ _ (conj Hi H1) N W Hk Hl A0 A1 D X0 X1) as Q.
  pose proof (corr_leaf p lim HO _ _ _ _ _ _ _ _ _ _ _ _ _ _ _ _ _ _ _ _ _ R Hc Hm Hn key level prefixes'
    _ _ ci0 ci1 _ _ dst _ _ (conj Hi H1) N' W' Hk Hl A0 A1 D X0 X1) as Q'.
  rewrite E in Q. rewrite E' in Q'. cbn [post] in Q, Q'.
  destruct Q as (r & Er & u0 & u1 & v0 & v1 & z & M1 & M2 & M3 & _). destruct Q' as (r' & Er' & u0' & u1' & v0' & v1' & z' & M1' & M2' & M3' & _).
  injection M1 as -> -> _ _. injection M1' as -> -> _ _. rewrite L in Er'. rewrite Er in Er'. injection Er' as <-.
  exists r, z, z'. split; [exact Er|]. split; [exact M2|]. split; [exact M2'|]. exact (mask_diff _ _ _ _ _ _ M3 M3').
Qed.
End C.
