(** Values of an IDPF whose keys and public share are chosen by a Client. *)
From Verif Require Export ExtractSpec.
From Verif Require Import IdpfFacts PostFacts FieldFacts VecFacts BaseFacts CommonFacts.
Open Scope nat_scope.

Lemma Ok_inj' {A} (a b : A) : Ok a = Ok b -> a = b.
Proof. now intros [= ->]. Qed.

Lemma map_upd' {A B} (f : A -> B) (l : list A) : forall j x, map f (upd l j x) = upd (map f l) j (f x).
Proof. induction l as [|a l IH]; intros [|j] x; cbn; try reflexivity. now rewrite IH. Qed.
Lemma upd_self {A} (d : A) (l : list A) : forall j, upd l j (nth j l d) = l.
Proof. induction l as [|a l IH]; intros [|j]; cbn; try reflexivity. now rewrite IH. Qed.

Section V.
Context {P : FieldClass}.
Add Ring FringEX : (@F_ring P).
Lemma vx (n : nat) (a b : list (F P)) : length a = n -> length b = n -> (forall k, k < n -> nth k a f0 = nth k b f0) -> a = b.
Proof. intros. apply (vec_eq n); auto. Qed.
Ltac len := repeat rewrite ?zip_with_length, ?map_length; lia.
Ltac vec n := apply (vx n); [len ..|]; intros k Hk;
  repeat first [rewrite !(nth_zip_with _ _ _ _ f0 f0) by len
               |rewrite !(nth_map' _ _ _ f0) by len].
Lemma l_tt n (a b p : list (F P)) : length a = n -> length b = n -> length p = n ->
  zip_with fadd (zip_with fadd a p) (map fneg (zip_with fadd b p)) = zip_with fadd a (map fneg b).
Proof. intros. vec n. ring. Qed.
Lemma l_tf n (a b p : list (F P)) : length a = n -> length b = n -> length p = n ->
  zip_with fadd (zip_with fadd a p) (map fneg b) = zip_with fadd (zip_with fadd a (map fneg b)) p.
Proof. intros. vec n. ring. Qed.
Lemma l_ft n (a b p : list (F P)) : length a = n -> length b = n -> length p = n ->
  zip_with fadd a (map fneg (zip_with fadd b p)) = zip_with fadd (zip_with fadd a (map fneg b)) (map fneg p).
Proof. intros. vec n. ring. Qed.
Lemma l_solve n (b v : list (F P)) : length b = n -> length v = n -> zip_with fadd b (zip_with fadd v (map fneg b)) = v.
Proof. intros. vec n. ring. Qed.
Lemma l_solve' n (b v : list (F P)) : length b = n -> length v = n ->
  zip_with fadd b (map fneg (map fneg (zip_with fadd v (map fneg b)))) = v.
Proof. intros. vec n. ring. Qed.
Lemma l_inj n (b p q : list (F P)) : length b = n -> length p = n -> length q = n ->
  zip_with fadd b p = zip_with fadd b q -> p = q.
Proof.
  intros Lb Lp Lq H. vec n. apply (f_equal (fun l => nth k l f0)) in H.
  rewrite !(nth_zip_with _ _ _ _ f0 f0) in H by lia.
  transitivity (fsub (fadd (nth k b f0) (nth k p f0)) (nth k b f0)); [ring|]. rewrite H. ring.
Qed.
Lemma l_neg n (p q : list (F P)) : length p = n -> length q = n -> map fneg p = map fneg q -> p = q.
Proof.
  intros Lp Lq H. vec n. apply (f_equal (fun l => nth k l f0)) in H. rewrite !(nth_map' _ _ _ f0) in H by lia.
  transitivity (fneg (fneg (nth k p f0))); [ring|]. rewrite H. ring.
Qed.
End V.

Section E.
Context (i : Idpf) (lim : Z) (HO : IdpfOk i lim) (ctx nonce : bytes) (Hc : ctx_ok ctx).
Notation FVec := (FieldVec (id_field_inner i) (id_field_leaf i)).
Notation KEY := (id_KEY_SIZE i).
Notation BITS := (id_BITS i).
Notation VLEN := (id_VALUE_LEN i).
Notation nod := (node i ctx nonce).
Notation lvl l := (of_level i l VLEN).
Notation differ := (differ i ctx nonce).

Lemma fv_value l (w0 w1 p : FVec) (c0 c1 : bool) : lvl l w0 -> lvl l w1 -> lvl l p ->
  exists y0 y1, (if c0 then fv_add_into i w0 p else Ok w0) = Ok y0 /\ (if c1 then fv_add_into i w1 p else Ok w1) = Ok y1 /\
    fv_add y0 (fv_neg y1) = Ok (node_value w0 w1 c0 c1 p) /\ lvl l (node_value w0 w1 c0 c1 p).
Proof.
  intros H0 H1 Hp.
  assert (G : exists y0 y1, (if c0 then fv_add_into i w0 p else Ok w0) = Ok y0 /\ (if c1 then fv_add_into i w1 p else Ok w1) = Ok y1 /\
    fv_add y0 (fv_neg y1) = Ok (node_value w0 w1 c0 c1 p)).
  { destruct w0 as [a|a], w1 as [b|b], p as [p|p]; cbn in H0, H1, Hp; try (exfalso; lia).
    all: destruct H0 as [K0 L0], H1 as [K1 L1], Hp as [Kp Lp].
    all: destruct c0, c1; cbn [fv_add_into fv_as]; rewrite ?map_fcast_id, ?add_into_zip by lia; cbn [bind]; do 2 eexists;
      (split; [reflexivity|]); (split; [reflexivity|]);
      cbn [fv_neg fv_add fv_as node_value fv_plus]; rewrite ?map_fcast_id; unfold vec_neg;
      rewrite vec_add_zip by (rewrite ?map_length, ?zip_with_length; lia); cbn [bind]; do 2 f_equal.
    all: solve [now apply (l_tt VLEN)|now apply (l_tf VLEN)|now apply (l_ft VLEN)|reflexivity]. }
  destruct G as (y0 & y1 & A & B & C). exists y0, y1. split; [exact A|]. split; [exact B|]. split; [exact C|].
  clear A B C. destruct w0 as [a|a], w1 as [b|b], p as [p|p]; cbn in H0, H1, Hp; try (exfalso; lia).
  all: destruct H0 as [K0 L0], H1 as [K1 L1], Hp as [Kp Lp].
  all: destruct c0, c1; cbn [node_value fv_plus fv_neg of_level]; unfold vec_neg; rewrite ?zip_with_length, ?map_length; lia.
Qed.

Lemma word_len words m : words_wf i words -> m < BITS -> length (fst (nth m words ([], (false, false)))) = KEY.
Proof. intros [L F] H. rewrite Forall_forall in F. apply F. apply nth_In. lia. Qed.

Lemma node_post j words key prefix n : words_wf i words -> length key = KEY -> n <= BITS ->
  post (nod j words key prefix n) (fun r => length (fst (fst r)) = KEY /\ (0 < n -> lvl (n - 1) (snd r))) (E_out i).
Proof.
  intros HW Hk. induction n as [|n IH]; intros Hn.
  - cbn. split; [easy|lia].
  - cbn [node]. eapply post_bind; [apply IH; lia|]. intros [[seed ctrl] y] _ [H _]. cbn [fst snd] in H.
    pose proof (word_len words n HW ltac:(lia)) as Lw.
    destruct (nth n words ([], (false, false))) as [scw ccw]. cbn [fst] in Lw.
    destruct (extend_ok i lim HO n seed ctx nonce H Hc) as (s & t & E & H0 & H1). rewrite E. cbn [bind].
    eapply post_bind; [apply (convert_post i lim HO); [|exact Hc]; destruct ctrl, (nth n prefix false); cbn [pick]; rewrite ?xor_length; lia|].
    intros [ns w] _ [A B]. cbn [post fst snd] in *. split; [exact A|]. intros _. now replace (S n - 1) with n by lia.
Qed.

Lemma walk_node j words payloads key prefix n : words_wf i words -> payloads_wf i payloads -> length key = KEY ->
  n <= BITS -> n <= length prefix ->
  forall s c w, nod j words key prefix n = Ok (s, c, w) ->
  exists y, walk i ctx nonce j (public_of i words payloads) key prefix n = Ok (s, c, y) /\
    (0 < n -> (if c then fv_add_into i w (nth (n - 1) payloads (Inner [])) else Ok w) = Ok y).
Proof.
  intros HW HP Hk. induction n as [|n IH]; intros Hn Hp s c w H.
  - cbn in H. injection H as <- <- <-. exists (Inner []). split; [reflexivity|lia].
  - pose proof (node_post j words key prefix (S n) HW Hk Hn) as PS. rewrite H in PS. cbn [post fst snd] in PS.
    destruct PS as [_ Hw]. specialize (Hw ltac:(lia)). replace (S n - 1) with n in * by lia.
    cbn [node] in H. apply bind_Ok in H. destruct H as ([[seed ctrl] y0] & H0 & H).
    destruct (IH ltac:(lia) ltac:(lia) _ _ _ H0) as (y & Hy & _).
    rewrite walk_S, Hy. cbn [bind]. rewrite (get_nth prefix n false) by lia. cbn [bind].
    rewrite (get_nth (public_of i words payloads) n (([], (false, false)), Inner [])).
    2: { assert (LP : length (public_of i words payloads) = BITS) by (refine (eq_trans (combine_length words payloads) _); destruct HW as [-> _], HP as [-> _]; apply Nat.min_id).
         unfold CorrectionWord, word in *. lia. }
    cbn [bind]. replace (nth n (public_of i words payloads) (([], (false, false)), Inner [])) with (nth n words ([], (false, false)), nth n payloads (Inner []))
      by (symmetry; apply combine_nth; destruct HW as [-> _], HP as [-> _]; reflexivity).
    destruct (nth n words ([], (false, false))) as [scw ccw].
    apply bind_Ok in H. destruct H as ([sp t] & He & H). unfold eval_next. rewrite He. cbn [bind].
    apply bind_Ok in H. destruct H as ([next w'] & Hcv & H). injection H as <- <- <-.
    assert (HL : exists r, fv_add_into i w' (nth n payloads (Inner [])) = Ok r).
    { destruct (add_into_post i n w' (nth n payloads (Inner [])) Hw) as (r & Hr & _); [|now exists r].
      apply (proj2 HP). apply nth_error_nth'. destruct HP as [-> _]. lia. }
    destruct HL as [r Hr].
    destruct ctrl, (nth n prefix false); cbn [pick fst snd] in *; rewrite Hcv; cbn [bind];
      match goal with |- context [if ?b then fv_add_into _ _ _ else _] => destruct b end; rewrite ?Hr; cbn [bind];
      eexists; (split; [reflexivity|]); reflexivity.
Qed.

Lemma eval_one j ps key level prefix : j < 2 -> level < BITS -> length prefix = S level ->
  idpf_eval i j ps key (Z.of_nat level) [prefix] ctx nonce
  = let* (_, _, y) := walk i ctx nonce j ps key prefix (S level) in Ok [if j =? 0 then y else fv_neg y].
Proof.
  intros Hj HL Hp. rewrite (eval_ok_args i ctx nonce) by first [exact Hj|exact HL|apply NoDup_cons; [now intros []|apply NoDup_nil]].
  cbn [mapM]. rewrite (eval_prefix_walk i ctx nonce) by exact Hp.
  destruct (walk i ctx nonce j ps key prefix (S level)) as [[[? ?] ?]|]; reflexivity.
Qed.

(** The value at a node. *)
Theorem node_shape words payloads key0 key1 level prefix s0 c0 w0 s1 c1 w1 :
  words_wf i words -> payloads_wf i payloads -> length key0 = KEY -> length key1 = KEY ->
  level < BITS -> length prefix = S level ->
  nod 0 words key0 prefix (S level) = Ok (s0, c0, w0) -> nod 1 words key1 prefix (S level) = Ok (s1, c1, w1) ->
  lvl level w0 /\ lvl level w1 /\ lvl level (node_value w0 w1 c0 c1 (nth level payloads (Inner []))) /\
  joint_value ctx nonce (public_of i words payloads) key0 key1 level prefix (node_value w0 w1 c0 c1 (nth level payloads (Inner []))).
Proof.
  intros HW HP K0 K1 HL Hp N0 N1.
  pose proof (node_post 0 words key0 prefix (S level) HW K0 HL) as P0. rewrite N0 in P0. cbn [post fst snd] in P0.
  pose proof (node_post 1 words key1 prefix (S level) HW K1 HL) as P1. rewrite N1 in P1. cbn [post fst snd] in P1.
  replace (S level - 1) with level in * by lia. destruct P0 as [_ W0], P1 as [_ W1]. specialize (W0 ltac:(lia)). specialize (W1 ltac:(lia)).
  destruct (walk_node 0 words payloads key0 prefix (S level) HW HP K0 HL ltac:(lia) _ _ _ N0) as (y0 & E0 & V0).
  destruct (walk_node 1 words payloads key1 prefix (S level) HW HP K1 HL ltac:(lia) _ _ _ N1) as (y1 & E1 & V1).
  replace (S level - 1) with level in * by lia. specialize (V0 ltac:(lia)). specialize (V1 ltac:(lia)).
  assert (Hw : lvl level (nth level payloads (Inner []))).
  { apply (proj2 HP). apply nth_error_nth'. destruct HP as [-> _]. exact HL. }
  destruct (fv_value level w0 w1 (nth level payloads (Inner [])) c0 c1 W0 W1 Hw) as (z0 & z1 & Z0 & Z1 & Z2 & Z3).
  assert (y0 = z0) by (eapply Ok_inj'; rewrite <- V0; exact Z0). assert (y1 = z1) by (eapply Ok_inj'; rewrite <- V1; exact Z1). subst z0 z1.
  split; [exact W0|]. split; [exact W1|]. split; [exact Z3|].
  exists y0, (fv_neg y1). rewrite !eval_one by (try lia; exact Hp). rewrite E0, E1. cbn [bind]. now repeat split.
Qed.

Lemma joint_fun (ps : list (CorrectionWord i)) key0 key1 level prefix (u v : FVec) : joint_value ctx nonce ps key0 key1 level prefix u ->
  joint_value ctx nonce ps key0 key1 level prefix v -> u = v.
Proof.
  intros (a & b & A & B & C) (a' & b' & A' & B' & C'). rewrite A in A'. rewrite B in B'. injection A' as <-. injection B' as <-.
  rewrite C in C'. now injection C'.
Qed.

(** A payload reaches every value where the control bits differ, and only one does. *)
Lemma value_reach l (w0 w1 v : FVec) (c0 c1 : bool) : c0 <> c1 -> lvl l w0 -> lvl l w1 -> lvl l v ->
  exists p, lvl l p /\ node_value w0 w1 c0 c1 p = v.
Proof.
  intros Hd H0 H1 Hv. destruct w0 as [a|a], w1 as [b|b], v as [v|v]; cbn in H0, H1, Hv; try (exfalso; lia).
  all: destruct H0 as [K0 L0], H1 as [K1 L1], Hv as [Kv Lv].
  all: assert (Lb : length (zip_with fadd a (map fneg b)) = VLEN) by (rewrite zip_with_length, map_length; lia).
  - exists (Inner (if c0 then zip_with fadd v (map fneg (zip_with fadd a (map fneg b))) else map fneg (zip_with fadd v (map fneg (zip_with fadd a (map fneg b)))))).
    split; [destruct c0; cbn [of_level]; repeat rewrite ?zip_with_length, ?map_length; repeat rewrite ?zip_with_length, ?map_length; lia|].
    destruct c0, c1; try congruence; cbn [node_value fv_plus fv_neg]; unfold vec_neg; f_equal;
      [now apply (l_solve VLEN)|now apply (l_solve' VLEN)].
  - exists (Leaf (if c0 then zip_with fadd v (map fneg (zip_with fadd a (map fneg b))) else map fneg (zip_with fadd v (map fneg (zip_with fadd a (map fneg b)))))).
    split; [destruct c0; cbn [of_level]; repeat rewrite ?zip_with_length, ?map_length; repeat rewrite ?zip_with_length, ?map_length; lia|].
    destruct c0, c1; try congruence; cbn [node_value fv_plus fv_neg]; unfold vec_neg; f_equal;
      [now apply (l_solve VLEN)|now apply (l_solve' VLEN)].
Qed.
Lemma value_inj l (w0 w1 p q : FVec) (c0 c1 : bool) : c0 <> c1 -> lvl l w0 -> lvl l w1 -> lvl l p -> lvl l q ->
  node_value w0 w1 c0 c1 p = node_value w0 w1 c0 c1 q -> p = q.
Proof.
  intros Hd H0 H1 Hp Hq. destruct w0 as [a|a], w1 as [b|b], p as [p|p], q as [q|q]; cbn in H0, H1, Hp, Hq; try (exfalso; lia).
  all: destruct H0 as [K0 L0], H1 as [K1 L1], Hp as [Kp Lp], Hq as [Kq Lq].
  all: assert (Lb : length (zip_with fadd a (map fneg b)) = VLEN) by (rewrite zip_with_length, map_length; lia).
  all: destruct c0, c1; try congruence; cbn [node_value fv_plus fv_neg]; unfold vec_neg; intros H; injection H as H; f_equal.
  all: first [now apply (l_inj VLEN) in H|apply (l_inj VLEN) in H; [now apply (l_neg VLEN)|rewrite ?map_length; lia..]].
Qed.
Lemma payloads_upd payloads l p : payloads_wf i payloads -> l < BITS -> lvl l p ->
  payloads_wf i (upd payloads l p) /\ nth l (upd payloads l p) (Inner []) = p.
Proof.
  intros [L H] Hl Hp. split; [split|].
  - now rewrite length_upd.
  - intros k w Hk. assert (Hk' : k < length payloads).
    { rewrite <- (length_upd payloads l p). apply nth_error_Some. congruence. }
    apply (nth_error_nth _ _ p) in Hk. rewrite nth_upd in Hk by lia. destruct (l =? k) eqn:E.
    + apply Nat.eqb_eq in E. now subst.
    + apply H. rewrite <- Hk. now apply nth_error_nth'.
  - apply nth_upd_same. lia.
Qed.

Theorem node_reach words payloads key0 key1 level prefix s0 c0 w0 s1 c1 w1 v :
  words_wf i words -> payloads_wf i payloads -> length key0 = KEY -> length key1 = KEY ->
  level < BITS -> length prefix = S level ->
  nod 0 words key0 prefix (S level) = Ok (s0, c0, w0) -> nod 1 words key1 prefix (S level) = Ok (s1, c1, w1) ->
  c0 <> c1 -> lvl level v ->
  exists p, lvl level p /\ forall q, lvl level q ->
    (joint_value ctx nonce (public_of i words (upd payloads level q)) key0 key1 level prefix v <-> q = p).
Proof.
  intros HW HP K0 K1 HL Hp N0 N1 Hd Hv.
  destruct (node_shape words payloads key0 key1 level prefix _ _ _ _ _ _ HW HP K0 K1 HL Hp N0 N1) as (W0 & W1 & _ & _).
  destruct (value_reach level w0 w1 v c0 c1 Hd W0 W1 Hv) as (p & Lp & Ep). exists p. split; [exact Lp|].
  intros q Lq. destruct (payloads_upd payloads level q HP HL Lq) as [HQ EQ].
  destruct (node_shape words _ key0 key1 level prefix _ _ _ _ _ _ HW HQ K0 K1 HL Hp N0 N1) as (_ & _ & _ & J). rewrite EQ in J. split.
  - intros J'. pose proof (joint_fun _ _ _ _ _ _ _ J J') as E. rewrite <- Ep in E. exact (value_inj level w0 w1 q p c0 c1 Hd W0 W1 Lq Lp E).
  - intros ->. rewrite Ep in J. exact J.
Qed.

(** The value at such a node determines the values at all nodes of its level. *)
Theorem node_line words payloads payloads' key0 key1 level x s0 c0 w0 s1 c1 w1 v y u u' :
  words_wf i words -> payloads_wf i payloads -> payloads_wf i payloads' -> length key0 = KEY -> length key1 = KEY ->
  level < BITS -> length x = S level -> length y = S level ->
  nod 0 words key0 x (S level) = Ok (s0, c0, w0) -> nod 1 words key1 x (S level) = Ok (s1, c1, w1) -> c0 <> c1 ->
  joint_value ctx nonce (public_of i words payloads) key0 key1 level x v ->
  joint_value ctx nonce (public_of i words payloads') key0 key1 level x v ->
  joint_value ctx nonce (public_of i words payloads) key0 key1 level y u ->
  joint_value ctx nonce (public_of i words payloads') key0 key1 level y u' -> u = u' \/ idpf_ran_out i.
Proof.
  intros HW HP HP' K0 K1 HL Hx Hy N0 N1 Hd J J' U U'.
  destruct (node_shape words payloads key0 key1 level x _ _ _ _ _ _ HW HP K0 K1 HL Hx N0 N1) as (W0 & W1 & _ & A).
  destruct (node_shape words payloads' key0 key1 level x _ _ _ _ _ _ HW HP' K0 K1 HL Hx N0 N1) as (_ & _ & _ & A').
  pose proof (joint_fun _ _ _ _ _ _ _ A J) as E. pose proof (joint_fun _ _ _ _ _ _ _ A' J') as E'.
  assert (EP : nth level payloads (Inner []) = nth level payloads' (Inner [])).
  { apply (value_inj level w0 w1 _ _ c0 c1 Hd W0 W1).
    - apply (proj2 HP). apply nth_error_nth'. destruct HP as [-> _]. exact HL.
    - apply (proj2 HP'). apply nth_error_nth'. destruct HP' as [-> _]. exact HL.
    - now rewrite E, E'. }
  destruct (nod 0 words key0 y (S level)) as [[[t0 d0] z0]|e] eqn:M0.
  2: { right. pose proof (node_post 0 words key0 y (S level) HW K0 HL) as G. rewrite M0 in G. apply G. }
  destruct (nod 1 words key1 y (S level)) as [[[t1 d1] z1]|e] eqn:M1.
  2: { right. pose proof (node_post 1 words key1 y (S level) HW K1 HL) as G. rewrite M1 in G. apply G. }
  left.
  destruct (node_shape words payloads key0 key1 level y _ _ _ _ _ _ HW HP K0 K1 HL Hy M0 M1) as (_ & _ & _ & B).
  destruct (node_shape words payloads' key0 key1 level y _ _ _ _ _ _ HW HP' K0 K1 HL Hy M0 M1) as (_ & _ & _ & B').
  rewrite <- (joint_fun _ _ _ _ _ _ _ B U), <- (joint_fun _ _ _ _ _ _ _ B' U'). now rewrite EP.
Qed.

(** Below a node where the Aggregators agree everything is zero. *)
Lemma node_same words key0 key1 prefix n s c w0 w1 :
  nod 0 words key0 prefix n = Ok (s, c, w0) -> nod 1 words key1 prefix n = Ok (s, c, w1) ->
  forall m, n < m -> nod 0 words key0 prefix m = nod 1 words key1 prefix m.
Proof.
  intros H0 H1 m Hm. induction m as [|m IH]; [lia|]. destruct (Nat.eq_dec m n) as [->|].
  - cbn [node]. rewrite H0, H1. reflexivity.
  - cbn [node]. rewrite IH by lia. reflexivity.
Qed.
Theorem node_dead words payloads key0 key1 level prefix n s c w0 w1 :
  words_wf i words -> payloads_wf i payloads -> length key0 = KEY -> length key1 = KEY ->
  level < BITS -> length prefix = S level -> n <= level ->
  nod 0 words key0 prefix n = Ok (s, c, w0) -> nod 1 words key1 prefix n = Ok (s, c, w1) ->
  joint_value ctx nonce (public_of i words payloads) key0 key1 level prefix (zero_at i level VLEN) \/ idpf_ran_out i.
Proof.
  intros HW HP K0 K1 HL Hp Hn N0 N1. pose proof (node_same _ _ _ _ _ _ _ _ _ N0 N1 (S level) ltac:(lia)) as E.
  destruct (nod 0 words key0 prefix (S level)) as [[[s' c'] w]|e] eqn:M0.
  2: { right. pose proof (node_post 0 words key0 prefix (S level) HW K0 HL) as G. rewrite M0 in G. apply G. }
  left. symmetry in E.
  destruct (node_shape words payloads key0 key1 level prefix _ _ _ _ _ _ HW HP K0 K1 HL Hp M0 E) as (W0 & _ & _ & A).
  replace (zero_at i level VLEN) with (node_value w w c' c' (nth level payloads (Inner []))); [exact A|].
  unfold zero_at. destruct w as [w|w]; cbn in W0; destruct W0 as [KW LW].
  - rewrite (proj2 (Nat.ltb_lt _ _) KW). rewrite <- LW, <- zip_neg_0. destruct c'; reflexivity.
  - rewrite (proj2 (Nat.ltb_ge _ _) KW). rewrite <- LW, <- zip_neg_0. destruct c'; reflexivity.
Qed.

(** The control bits of both children of a node can be made to differ. *)
Lemma node_upd j words key prefix m w n : n <= m -> m < length words -> nod j (upd words m w) key prefix n = nod j words key prefix n.
Proof.
  intros Hn Hm. induction n as [|n IH]; [reflexivity|]. cbn [node]. rewrite IH by lia.
  rewrite nth_upd by lia. replace (m =? n) with false by (symmetry; apply Nat.eqb_neq; lia). reflexivity.
Qed.
Lemma node_prefix j words key prefix bit n : n <= length prefix -> nod j words key (prefix ++ [bit]) n = nod j words key prefix n.
Proof.
  induction n as [|n IH]; intros Hn; [reflexivity|]. cbn [node]. rewrite IH by lia. now rewrite app_nth1 by lia.
Qed.
Theorem node_children words key0 key1 prefix seed : words_wf i words -> length key0 = KEY -> length key1 = KEY ->
  length prefix < BITS -> length seed = KEY -> differ words key0 key1 prefix (length prefix) ->
  idpf_ran_out i \/ exists ctrl, let words' := upd words (length prefix) (seed, ctrl) in
    words_wf i words' /\ forall bit, differ words' key0 key1 (prefix ++ [bit]) (S (length prefix)).
Proof.
  intros HW K0 K1 HL Hs (s0 & c0 & w0 & s1 & c1 & w1 & N0 & N1 & Hd).
  pose proof (node_post 0 words key0 prefix (length prefix) HW K0 ltac:(lia)) as P0. rewrite N0 in P0. destruct P0 as [L0 _]. cbn [fst snd] in L0.
  pose proof (node_post 1 words key1 prefix (length prefix) HW K1 ltac:(lia)) as P1. rewrite N1 in P1. destruct P1 as [L1 _]. cbn [fst snd] in L1.
  destruct (extend_ok i lim HO (length prefix) s0 ctx nonce L0 Hc) as (e0 & t0 & E0 & _ & _).
  destruct (extend_ok i lim HO (length prefix) s1 ctx nonce L1 Hc) as (e1 & t1 & E1 & _ & _).
  pose (ctrl := (negb (xorb (fst t0) (fst t1)), negb (xorb (snd t0) (snd t1)))).
  assert (HW' : words_wf i (upd words (length prefix) (seed, ctrl))).
  { destruct HW as [L F]. split; [now rewrite length_upd|]. apply Forall_forall. intros x Hx.
    apply (In_nth _ _ ([], (false, false))) in Hx as (k & Hk & <-). rewrite length_upd in Hk. assert (HLW : length prefix < length words) by (rewrite L; exact HL). rewrite nth_upd by first [exact HLW|exact Hk].
    destruct (length prefix =? k); [exact Hs|]. rewrite Forall_forall in F. apply F. now apply nth_In. }
  assert (G : forall bit, idpf_ran_out i \/ differ (upd words (length prefix) (seed, ctrl)) key0 key1 (prefix ++ [bit]) (S (length prefix))).
  { intros bit.
    destruct (nod 0 (upd words (length prefix) (seed, ctrl)) key0 (prefix ++ [bit]) (S (length prefix))) as [[[a0 b0] v0]|e] eqn:M0.
    2: { left. pose proof (node_post 0 _ key0 (prefix ++ [bit]) (S (length prefix)) HW' K0 ltac:(lia)) as G. rewrite M0 in G. apply G. }
    destruct (nod 1 (upd words (length prefix) (seed, ctrl)) key1 (prefix ++ [bit]) (S (length prefix))) as [[[a1 b1] v1]|e] eqn:M1.
    2: { left. pose proof (node_post 1 _ key1 (prefix ++ [bit]) (S (length prefix)) HW' K1 ltac:(lia)) as G. rewrite M1 in G. apply G. }
    right. exists a0, b0, v0, a1, b1, v1. split; [exact M0|]. split; [exact M1|].
    destruct HW as [LW _]. cbn [node] in M0, M1.
    rewrite node_upd, node_prefix, N0 in M0 by lia. rewrite node_upd, node_prefix, N1 in M1 by lia. cbn [bind] in M0, M1.
    rewrite nth_upd_same in M0, M1 by (unfold word in *; lia). rewrite app_nth2, Nat.sub_diag in M0, M1 by lia. cbn [nth] in M0, M1.
    rewrite E0 in M0. rewrite E1 in M1. cbn [bind] in M0, M1.
    apply bind_Ok in M0. destruct M0 as ([? ?] & _ & M0). injection M0 as _ <- _.
    apply bind_Ok in M1. destruct M1 as ([? ?] & _ & M1). injection M1 as _ <- _.
    clear -Hd. unfold ctrl. destruct t0 as [[] []], t1 as [[] []], c0, c1, bit; cbn; congruence. }
  destruct (G false) as [|G0]; [now left|]. destruct (G true) as [|G1]; [now left|].
  right. exists ctrl. cbv zeta. split; [exact HW'|]. now intros [].
Qed.

(** So two nodes with differing control bits exist below every node. *)
Theorem node_branch seeds key0 key1 prefix : length seeds = BITS -> Forall (fun s => length s = KEY) seeds ->
  length key0 = KEY -> length key1 = KEY -> length prefix < BITS ->
  idpf_ran_out i \/ exists words, words_wf i words /\ map fst words = seeds /\
    forall bit, differ words key0 key1 (prefix ++ [bit]) (S (length prefix)).
Proof.
  intros LS FS K0 K1 HL.
  assert (G : forall n, n <= length prefix -> idpf_ran_out i \/ exists words, words_wf i words /\ map fst words = seeds /\
    differ words key0 key1 (firstn n prefix) n).
  { induction n as [|n IH]; intros Hn.
    - right. exists (map (fun s => (s, (false, false))) seeds). split; [split|split].
      + now rewrite map_length.
      + apply Forall_forall. intros x Hx. apply in_map_iff in Hx. destruct Hx as (s & <- & Hs). rewrite Forall_forall in FS. now apply FS.
      + rewrite map_map. now rewrite map_id.
      + exists key0, false, (Inner []), key1, true, (Inner []). now repeat split.
    - destruct (IH ltac:(lia)) as [|(words & HW & HM & HD)]; [now left|].
      assert (Lf : length (firstn n prefix) = n) by (rewrite firstn_length; lia).
      assert (Hs : length (nth n seeds []) = KEY) by (rewrite Forall_forall in FS; apply FS, nth_In; lia).
      destruct (node_children words key0 key1 (firstn n prefix) (nth n seeds []) HW K0 K1 ltac:(lia) Hs) as [|(ctrl & HW' & HD')]; [now rewrite Lf|now left|].
      cbv zeta in HW', HD'. rewrite Lf in HW', HD'. right. eexists. split; [exact HW'|]. split; [|].
      + rewrite map_upd'. cbn [fst]. rewrite HM. apply upd_self.
      + rewrite (list_snoc_firstn false) by lia. apply HD'. }
  destruct (G (length prefix) (le_n _)) as [|(words & HW & HM & HD)]; [now left|]. rewrite firstn_all in HD.
  assert (Hs : length (nth (length prefix) seeds []) = KEY) by (rewrite Forall_forall in FS; apply FS, nth_In; lia).
  destruct (node_children words key0 key1 prefix (nth (length prefix) seeds []) HW K0 K1 HL Hs HD) as [|(ctrl & HW' & HD')]; [now left|].
  right. eexists. split; [exact HW'|]. split; [|exact HD']. rewrite map_upd'. cbn [fst]. rewrite HM. apply upd_self.
Qed.
End E.
