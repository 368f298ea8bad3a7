(** Prio3: joint randomness, codecs, aggregation, soundness. *)
From Verif Require Export Prio3Run FlpProofs.
From Coq Require Import Permutation.
Open Scope nat_scope.

Section Codecs.
Context (p : Prio3) (HW : wf_field (p3_field p)).
Notation field := (p3_field p).
Notation flp := (p3_flp p).
Notation xof := (p3_xof p).
Notation S_ := (p3_SHARES p).
Notation PR := (p3_PROOFS p).

Lemma decode_vec_len (b : bytes) v n : decode_vec b = Ok (v : list (F field)) -> length b = ENCODED_SIZE field * n ->
  length v = n /\ encode_vec v = Ok b.
Proof.
  intros H L. destruct (codec_vec HW) as (H1 & H2 & _). pose proof (H2 _ _ H) as E. split; [|easy].
  destruct (H1 v) as (b' & E' & L' & _). rewrite E in E'. injection E' as <-.
  rewrite L in L'. destruct HW. rewrite Nat.mul_comm in L'. now apply Nat.mul_cancel_r in L'; [|lia].
Qed.

Lemma decode_blind_app b rest : blind_wf p b ->
  decode_blind p (app_opt [] b ++ rest) = Ok (b, rest).
Proof.
  unfold blind_wf, decode_blind. destruct (0 <? JOINT_RAND_LEN flp).
  - intros (s & -> & L). cbn [app_opt]. simpl app. rewrite front_app by easy. easy.
  - intros ->. easy.
Qed.

Lemma decode_blind_Ok x b rest : decode_blind p x = Ok (b, rest) -> blind_wf p b /\ x = app_opt [] b ++ rest.
Proof.
  unfold blind_wf, decode_blind. destruct (0 <? JOINT_RAND_LEN flp).
  - intros H. apply bind_Ok in H as ([s r] & H & E). injection E as <- <-. apply front_Ok in H as [L ->].
    split; [eauto | easy].
  - intros H. now injection H as <- <-.
Qed.

Lemma app_opt_app x b : app_opt x b = x ++ app_opt [] b.
Proof. destruct b; simpl; [easy | now rewrite app_nil_r]. Qed.

Lemma length_0_nil {A} (l : list A) : (length l =? 0) = true -> l = [].
Proof. destruct l; easy. Qed.

Theorem input_share_codec j : canonical_codec (input_share_wf p j) (p3_encode_input_share p) (p3_decode_input_share p j).
Proof.
  split.
  - intros [ms ps b|s b] W; cbn [input_share_wf] in W; unfold p3_encode_input_share, p3_decode_input_share.
    + destruct W as (-> & Lm & Lp & Wb).
      destruct (encode_vec_ok ms HW) as (bm & Em & Lbm & Dm). destruct (encode_vec_ok ps HW) as (bp & Ep & Lbp & Dp).
      rewrite (proj2 (Nat.eqb_eq _ _) Lp), Em. cbn [check bind]. rewrite Ep. cbn [bind].
      eexists. split; [reflexivity|]. rewrite app_opt_app. cbn [Nat.eqb]. rewrite <- app_assoc.
      rewrite front_app by (rewrite Lbm, Lm; lia). cbn [bind]. rewrite front_app by (rewrite Lbp, Lp; lia). cbn [bind].
      rewrite Dm. cbn [bind]. rewrite Dp. cbn [bind].
      rewrite <- (app_nil_r (app_opt [] b)), decode_blind_app by easy. easy.
    + destruct W as (Hj & Ls & Wb). eexists. split; [reflexivity|].
      rewrite (proj2 (Nat.eqb_neq _ _) Hj). rewrite app_opt_app, front_app by easy. cbn [bind].
      rewrite <- (app_nil_r (app_opt [] b)), decode_blind_app by easy. easy.
  - intros x v H. unfold p3_decode_input_share in H. destruct (j =? 0) eqn:Ej.
    + apply Nat.eqb_eq in Ej. subst j.
      apply bind_Ok in H as ([mb x1] & H1 & H). apply bind_Ok in H as ([pb x2] & H2 & H).
      apply bind_Ok in H as (ms & Dm & H). apply bind_Ok in H as (ps & Dp & H).
      apply bind_Ok in H as ([b x3] & Hb & H). apply bind_Ok in H as (? & Hc & H). injection H as <-.
      apply check_Ok in Hc. apply length_0_nil in Hc. subst x3.
      apply decode_blind_Ok in Hb as [Wb ->]. apply front_Ok in H1 as [L1 ->]. apply front_Ok in H2 as [L2 ->].
      destruct (decode_vec_len _ _ _ Dm L1) as [Lm Em].
      rewrite <- Nat.mul_assoc in L2. destruct (decode_vec_len _ _ _ Dp L2) as [Lp Ep].
      split; [easy|]. cbn [p3_encode_input_share]. rewrite (proj2 (Nat.eqb_eq _ _) Lp), Em. cbn [check bind].
      rewrite Ep. cbn [bind]. now rewrite app_opt_app, app_nil_r, <- app_assoc.
    + apply Nat.eqb_neq in Ej.
      apply bind_Ok in H as ([s x1] & H1 & H).
      apply bind_Ok in H as ([b x3] & Hb & H). apply bind_Ok in H as (? & Hc & H). injection H as <-.
      apply check_Ok in Hc. apply length_0_nil in Hc. subst x3.
      apply decode_blind_Ok in Hb as [Wb ->]. apply front_Ok in H1 as [L1 ->].
      split; [easy|]. cbn [p3_encode_input_share]. now rewrite app_opt_app, app_nil_r.
Qed.

Theorem verifier_share_codec st : canonical_codec (verifier_share_wf p) (p3_encode_verifier_share p) (p3_decode_verifier_share p st).
Proof.
  split.
  - intros [v b] [Lv Wb]. cbn [fst snd] in *. unfold p3_encode_verifier_share, p3_decode_verifier_share.
    destruct (encode_vec_ok v HW) as (bv & Ev & Lbv & Dv).
    rewrite (proj2 (Nat.eqb_eq _ _) Lv), Ev. cbn [check bind]. eexists. split; [reflexivity|].
    rewrite app_opt_app, front_app by (rewrite Lbv, Lv; lia). cbn [bind]. rewrite Dv. cbn [bind].
    rewrite <- (app_nil_r (app_opt [] b)), decode_blind_app by easy. easy.
  - intros x [v b] H. unfold p3_decode_verifier_share in H.
    apply bind_Ok in H as ([vb x1] & H1 & H). apply bind_Ok in H as (v' & Dv & H).
    apply bind_Ok in H as ([b' x3] & Hb & H). apply bind_Ok in H as (? & Hc & H). injection H as <- <-.
    apply check_Ok in Hc. apply length_0_nil in Hc. subst x3.
    apply decode_blind_Ok in Hb as [Wb ->]. apply front_Ok in H1 as [L1 ->].
    rewrite <- Nat.mul_assoc in L1. destruct (decode_vec_len _ _ _ Dv L1) as [Lv Ev].
    split; [easy|]. cbn [p3_encode_verifier_share]. rewrite (proj2 (Nat.eqb_eq _ _) Lv), Ev. cbn [check bind].
    now rewrite app_opt_app, app_nil_r.
Qed.

Lemma public_loop (parts : list bytes) rest acc : Forall (fun x => length x = SEED_SIZE xof) parts ->
  foldM (fun '(joint_rand_parts, encoded) (_ : nat) =>
        let* (joint_rand_part, encoded) := front (SEED_SIZE xof) encoded in
        Ok (joint_rand_parts ++ [joint_rand_part], encoded)) (seq 0 (length parts)) (acc, concat parts ++ rest)
  = Ok (acc ++ parts, rest).
Proof.
  generalize 0. intros s HF. revert s acc. induction HF as [|x l Hx HF IH]; intros s acc; cbn [length seq foldM].
  - now rewrite app_nil_r.
  - cbn [concat]. rewrite <- app_assoc, front_app by easy. cbn [bind]. rewrite IH, <- app_assoc. easy.
Qed.

Lemma public_loop_Ok n s (x : bytes) (acc ps : list bytes) (rest : bytes) :
  foldM (fun '(joint_rand_parts, encoded) (_ : nat) =>
        let* (joint_rand_part, encoded) := front (SEED_SIZE xof) encoded in
        Ok (joint_rand_parts ++ [joint_rand_part], encoded)) (seq s n) (acc, x) = Ok (ps, rest) ->
  exists parts, ps = acc ++ parts /\ length parts = n /\ Forall (fun y => length y = SEED_SIZE xof) parts /\
    x = concat parts ++ rest.
Proof.
  revert s x acc. induction n as [|n IH]; intros s x acc H; cbn [seq foldM] in H.
  - injection H as <- <-. exists []. now rewrite app_nil_r.
  - apply bind_Ok in H as ([a y] & H1 & H). apply bind_Ok in H1 as ([q y'] & Hf & E). injection E as <- <-.
    apply front_Ok in Hf as [L ->]. apply IH in H as (parts & -> & Lp & HF & ->).
    exists (q :: parts). rewrite <- app_assoc. cbn [concat]. rewrite <- app_assoc.
    split; [easy|]. split; [simpl; lia|]. split; [now constructor | easy].
Qed.

Theorem public_share_codec : 0 < JOINT_RAND_LEN flp ->
  canonical_codec (public_share_wf p) (p3_encode_public_share) (p3_decode_public_share p).
Proof.
  intros HJ. unfold public_share_wf, p3_decode_public_share, p3_encode_public_share.
  rewrite (proj2 (Nat.ltb_lt _ _) HJ). replace (JOINT_RAND_LEN flp =? 0) with false by (symmetry; apply Nat.eqb_neq; lia).
  split.
  - intros v (parts & -> & L & HF). eexists. split; [reflexivity|].
    unfold for_range, range. rewrite Nat.sub_0_r, <- L. unfold concat_bytes.
    pose proof (public_loop parts [] [] HF) as H. rewrite app_nil_r in H.
    match goal with |- bind ?m _ = _ => assert (E : m = Ok (parts, [])) by exact H; rewrite E end. easy.
  - intros x v H. apply bind_Ok in H as ([parts rest] & H & H').
    apply bind_Ok in H' as (? & Hc & E). injection E as <-. apply check_Ok in Hc. apply length_0_nil in Hc. subst rest.
    unfold for_range, range in H. rewrite Nat.sub_0_r in H. apply public_loop_Ok in H as (ps & -> & L & HF & ->).
    rewrite app_nil_l, app_nil_r. split; [|easy]. exists ps. easy.
Qed.

Theorem public_share_codec_none : JOINT_RAND_LEN flp = 0 ->
  p3_encode_public_share None = Ok [] /\ forall x, p3_decode_public_share p x = Ok None.
Proof. intros H. unfold p3_decode_public_share. rewrite H. easy. Qed.

Theorem message_codec st : canonical_codec (fun m => m <> Some []) p3_encode_verifier_message (p3_decode_verifier_message p st).
Proof.
  unfold p3_encode_verifier_message, p3_decode_verifier_message. split.
  - intros [m|] H; eexists; (split; [reflexivity|]); simpl; [|easy]. destruct m; [now contradiction H | easy].
  - intros [|b x] v H; injection H as <-; easy.
Qed.

Theorem share_codec : 
  canonical_codec (fun _ => True) (p3_encode_agg_share p) (p3_decode_agg_share p tt) /\
  canonical_codec (fun _ => True) (p3_encode_out_share p) (p3_decode_out_share p tt).
Proof.
  destruct (codec_vec HW) as (H1 & H2 & _).
  split; (split; [intros v _; destruct (H1 v) as (b & ? & ? & ? & _); eauto | intros b v H; split; [easy | now apply H2]]).
Qed.

Theorem agg_param_codec : canonical_codec (fun _ => True) p3_encode_agg_param p3_decode_agg_param.
Proof.
  split.
  - intros [] _. exists []. easy.
  - intros [|b x] v H; [|easy]. injection H as <-. easy.
Qed.
End Codecs.

(** ** Aggregation *)
Section Agg.
Context (p : Prio3).
Notation field := (p3_field p).
Notation flp := (p3_flp p).
Notation F := (F (p3_field p)).
Add Ring FringPP : (@F_ring (p3_field p)).

Lemma fsuml_perm (l l' : list F) : Permutation l l' -> fsuml l = fsuml l'.
Proof. induction 1; simpl; try congruence. ring. Qed.

Lemma vsum_perm n (l l' : list (list F)) : Permutation l l' -> vsum n l = vsum n l'.
Proof.
  intros H. apply (vec_eq n); try apply vsum_length. intros i Hi. rewrite !nth_vsum by easy.
  apply fsuml_perm. now apply Permutation_map.
Qed.

Lemma vec_add_vsum n (l : list (list F)) o : length o = n ->
  vec_add (vsum n l) o = Ok (vsum n (l ++ [o])).
Proof.
  intros H. unfold vec_add. rewrite vsum_length, (proj2 (Nat.eqb_eq _ _)) by easy.
  now rewrite vsum_app, vsum_one.
Qed.

Lemma vsum_map_vsum n (ll : list (list (list F))) : vsum n (map (vsum n) ll) = vsum n (concat ll).
Proof.
  induction ll as [|l ll IH]; [easy|]. cbn [map concat]. rewrite vsum_cons, vsum_app by apply vsum_length.
  now rewrite IH.
Qed.

Notation outs_ok := (outs_ok p).

Theorem aggregated_vsum os a : aggregated (Prio3Vdaf p) tt os a -> outs_ok os -> a = vsum (OUTPUT_LEN flp) os.
Proof.
  revert os a.
  apply (aggregated_mind (Prio3Vdaf p) tt
    (fun os a _ => outs_ok os -> a = vsum (OUTPUT_LEN flp) os)
    (fun oss shares _ => Forall outs_ok oss -> shares = map (vsum (OUTPUT_LEN flp)) oss)).
  - intros a e _. injection e as <-. symmetry. apply vsum_nil.
  - intros os a o a' _ IH e HO. apply Forall_app in HO as [H1 H2]. inversion H2; subst.
    rewrite IH in e by easy.
    change (vec_add (vsum (OUTPUT_LEN flp) os) o = Ok a') in e. rewrite vec_add_vsum in e by easy. now injection e as <-.
  - intros oss shares a _ IH e HO. assert (HF : Forall outs_ok oss).
    { clear -HO. induction oss as [|x oss IH]; [constructor|]. cbn [concat] in HO. apply Forall_app in HO as [? ?].
      constructor; [easy | now apply IH]. }
    rewrite IH in e by easy.
    change (p3_merge p tt (map (vsum (OUTPUT_LEN flp)) oss) = Ok a) in e.
    unfold p3_merge, p3_agg_init in e. cbn [bind] in e. rewrite fold_vec_add_0 in e.
    + injection e as <-. apply vsum_map_vsum.
    + apply Forall_forall. intros x Hx. apply in_map_iff in Hx as (y & <- & _). apply vsum_length.
  - easy.
  - intros os a oss shares _ IH1 _ IH2 HO. inversion HO; subst. cbn [map].
    f_equal; [now apply IH1 | now apply IH2].
Qed.

Theorem aggregated_order os os' a a' : outs_ok os -> Permutation os os' ->
  aggregated (Prio3Vdaf p) tt os a -> aggregated (Prio3Vdaf p) tt os' a' -> a = a'.
Proof.
  intros HO HP H H'. rewrite (aggregated_vsum _ _ H HO).
  assert (HO' : outs_ok os') by (unfold outs_ok in *; rewrite Forall_forall in *; intros x Hx;
    apply HO; eapply Permutation_in; [symmetry; exact HP | exact Hx]).
  rewrite (aggregated_vsum _ _ H' HO'). now apply vsum_perm.
Qed.

(** No call fails. *)
Theorem aggregated_total :
  (exists a, p3_agg_init p tt = Ok a) /\
  (forall os a o, aggregated (Prio3Vdaf p) tt os a -> outs_ok os -> length o = OUTPUT_LEN flp ->
     exists a', p3_agg_update p tt a o = Ok a') /\
  (forall oss shares, aggregated_all (Prio3Vdaf p) tt oss shares -> Forall outs_ok oss ->
     exists a, p3_merge p tt shares = Ok a).
Proof.
  split; [now eexists|]. split.
  - intros os a o H HO Ho. rewrite (aggregated_vsum _ _ H HO). eexists. now apply vec_add_vsum.
  - intros oss shares H HO. exists (vsum (OUTPUT_LEN flp) shares). unfold p3_merge. cbn [p3_agg_init bind].
    apply fold_vec_add_0. induction H; [constructor|]. inversion HO; subst. constructor; [|now apply IHaggregated_all].
    rewrite (aggregated_vsum _ _ H H3). apply vsum_length.
Qed.

(** Unsharding the aggregate shares of all Aggregators decodes the sum of all
    output shares. *)
Theorem unshard_total oss shares n : aggregated_all (Prio3Vdaf p) tt oss shares -> Forall outs_ok oss ->
  p3_unshard p tt shares n = flp_decode flp (vsum (OUTPUT_LEN flp) (concat oss)) n.
Proof.
  intros H HO. unfold p3_unshard.
  assert (E : shares = map (vsum (OUTPUT_LEN flp)) oss).
  { induction H; [easy|]. inversion HO; subst. cbn [map]. rewrite <- IHaggregated_all by easy.
    now rewrite <- (aggregated_vsum _ _ H). }
  unfold p3_merge. cbn [p3_agg_init bind]. rewrite fold_vec_add_0.
  - cbn [bind]. now rewrite E, vsum_map_vsum.
  - rewrite E. apply Forall_forall. intros x Hx. apply in_map_iff in Hx as (y & <- & _). apply vsum_length.
Qed.
End Agg.

(** ** Joint randomness *)
Section Joint.
Context (p : Prio3).
Notation field := (p3_field p).
Notation flp := (p3_flp p).
Notation xof := (p3_xof p).
Notation S_ := (p3_SHARES p).

Theorem verify_next_iff ctx out seed msg r :
  p3_verify_next p ctx (out, seed) msg = Ok r <-> msg = seed /\ r = inr out.
Proof.
  unfold p3_verify_next. destruct (opt_bytes_eqb msg seed) eqn:E; cbn [check bind]; split.
  - intros H. injection H as <-. now apply opt_bytes_eqb_eq in E.
  - now intros [_ ->].
  - easy.
  - intros [-> _]. rewrite (proj2 (opt_bytes_eqb_eq seed seed) eq_refl) in E. easy.
Qed.

Lemma concat_const_inj {A} (k : nat) (a b : list (list A)) : 0 < k ->
  Forall (fun x => length x = k) a -> Forall (fun x => length x = k) b -> concat a = concat b -> a = b.
Proof.
  intros Hk HA. revert b. induction HA as [|x a Hx HA IH]; intros b HB H; destruct HB as [|y b Hy HB].
  - easy.
  - cbn [concat] in H. apply (f_equal (@length A)) in H. rewrite app_length in H. simpl in H. lia.
  - cbn [concat] in H. apply (f_equal (@length A)) in H. rewrite app_length in H. simpl in H. lia.
  - cbn [concat] in H. assert (x = y /\ concat a = concat b) as [-> HC].
    { assert (E1 : firstn k (x ++ concat a) = firstn k (y ++ concat b)) by now rewrite H.
      assert (E2 : skipn k (x ++ concat a) = skipn k (y ++ concat b)) by now rewrite H.
      subst k. rewrite firstn_app, Nat.sub_diag, firstn_all, firstn_O, app_nil_r in E1.
      rewrite firstn_app, Hy, Nat.sub_diag, <- Hy, firstn_all, firstn_O, app_nil_r in E1.
      rewrite skipn_app, Nat.sub_diag, skipn_all in E2.
      rewrite <- Hy, skipn_app, Nat.sub_diag, skipn_all in E2. easy. }
    f_equal. now apply IH.
Qed.

Lemma seed_binding ctx (a b : list bytes) s : 0 < SEED_SIZE xof ->
  Forall (fun x => length x = SEED_SIZE xof) a -> Forall (fun x => length x = SEED_SIZE xof) b ->
  joint_rand_seed p ctx a = Ok s -> joint_rand_seed p ctx b = Ok s -> a = b \/ seed_collision xof.
Proof.
  intros Hk Ha Hb H1 H2. unfold joint_rand_seed in *.
  apply bind_Ok in H1 as (d & Hd & H1). rewrite Hd in H2. cbn [bind] in H2.
  destruct (list_eq_dec Byte.byte_eq_dec (concat_bytes a) (concat_bytes b)) as [E|NE].
  - left. now apply (concat_const_inj (SEED_SIZE xof)).
  - right. unfold seed_collision. eauto 10.
Qed.

Context (lim : Z) (HO : Prio3Ok p lim).

Lemma derive_seed_len seed dst binder s : derive_seed xof seed dst binder = Ok s -> length s = SEED_SIZE xof.
Proof.
  unfold derive_seed. intros H. apply bind_Ok in H as (st & E & H).
  destruct (xo_stream _ lim (po_xof _ _ HO) _ _ _ _ E) as (str & at_ & H0 & Hn).
  rewrite <- H0, Hn in H by exact (po_seed_lim _ _ HO). cbn [bind] in H. injection H as <-. apply stream_bytes_length.
Qed.

Lemma part_length ctx j blind ms nonce part : joint_rand_part p ctx j blind ms nonce = Ok part ->
  length part = SEED_SIZE xof.
Proof.
  unfold joint_rand_part. intros H. apply bind_Ok in H as (d & _ & H). apply bind_Ok in H as (b & _ & H).
  apply bind_Ok in H as (e & _ & H). now apply derive_seed_len in H.
Qed.

(** What verify_init computes about joint randomness. *)
Lemma verify_init_joint key ctx j nonce public is out seed v part : 0 < JOINT_RAND_LEN flp ->
  p3_verify_init p key ctx j tt nonce public is = Ok ((out, seed), (v, part)) ->
  exists ms ps blind jr, expand_input_share p ctx j is = Ok (ms, ps, blind) /\
    verify_joint_rand p ctx j blind ms nonce public = Ok (seed, part, jr).
Proof.
  intros HJ H. unfold p3_verify_init in H. apply bind_Ok in H as ([[ms ps] blind] & He & H).
  apply bind_Ok in H as (o & _ & H). apply bind_Ok in H as ([[sd pt] jr] & Hj & H).
  apply bind_Ok in H as (qr & _ & H). apply bind_Ok in H as ([[[vv a] b] c] & _ & H).
  injection H as <- <- <- <-. exists ms, ps, blind, jr. easy.
Qed.

Lemma verify_joint_rand_Ok ctx j blind ms nonce public seed part jr : 0 < JOINT_RAND_LEN flp ->
  verify_joint_rand p ctx j blind ms nonce public = Ok (seed, part, jr) ->
  exists b parts pt s, blind = Some b /\ public = Some parts /\ part = Some pt /\ seed = Some s /\
    joint_rand_part p ctx j b ms nonce = Ok pt /\ j < length parts /\
    joint_rand_seed p ctx (upd parts j pt) = Ok s /\ joint_rands p ctx s = Ok jr.
Proof.
  intros HJ H. unfold verify_joint_rand in H. rewrite (proj2 (Nat.ltb_lt _ _) HJ) in H.
  destruct blind as [b|], public as [parts|]; try easy.
  apply bind_Ok in H as (pt & Hp & H). apply bind_Ok in H as (ps & Hs & H).
  apply bind_Ok in H as (s & Hsd & H). apply bind_Ok in H as (r & Hr & H). injection H as <- <- <-.
  apply set_Ok in Hs as [Hj ->]. exists b, parts, pt, s. easy.
Qed.

(** The message combines the parts in order. *)
Lemma message_Ok ctx shs msg : 0 < JOINT_RAND_LEN flp ->
  p3_verifier_shares_to_message p ctx tt shs = Ok msg ->
  exists parts s, map snd shs = map Some parts /\ joint_rand_seed p ctx parts = Ok s /\ msg = Some s.
Proof.
  intros HJ H. unfold p3_verifier_shares_to_message in H. rewrite (proj2 (Nat.ltb_lt _ _) HJ) in H.
  apply bind_Ok in H as ([v parts] & Hf & H). apply bind_Ok in H as (r & _ & H).
  apply bind_Ok in H as (s & Hs & H). injection H as <-.
  exists parts, s. split; [|easy].
  revert Hf. generalize (fzeros (P := field) (VERIFIER_LEN flp * p3_PROOFS p)).
  cut (forall acc f, foldM
    (fun '(verifiers, joint_rand_parts) '(verifiers_share, joint_rand_part) =>
      let* verifiers := vec_add verifiers verifiers_share in
        match joint_rand_part with
        | Some part => Ok (verifiers, joint_rand_parts ++ [part])
        | None => Raise AssertionError
        end) shs (f, acc) = Ok (v, parts) -> map Some acc ++ map snd shs = map Some parts).
  { intros C f Hf. apply (C [] f Hf). }
  induction shs as [|[a b] shs IH]; intros acc f Hf; cbn [foldM] in Hf.
  - injection Hf as _ <-. apply app_nil_r.
  - apply bind_Ok in Hf as ([f' acc'] & Hb & Hf). apply bind_Ok in Hb as (w & _ & Hb).
    destruct b as [b|]; [|easy]. injection Hb as <- <-. apply IH in Hf. rewrite map_app, <- app_assoc in Hf. exact Hf.
Qed.

(** Binding. *)
Theorem joint_binding key ctx nonce public (is : nat -> Prio3InputShare field) st sh msg :
  0 < JOINT_RAND_LEN flp ->
  length public = S_ -> Forall (fun x => length x = SEED_SIZE xof) public ->
  (forall j, j < S_ -> p3_verify_init p key ctx j tt nonce (Some public) (is j) = Ok (st j, sh j)) ->
  p3_verifier_shares_to_message p ctx tt (map sh (seq 0 S_)) = Ok msg ->
  (forall j, j < S_ -> exists o, p3_verify_next p ctx (st j) msg = Ok o) ->
  (exists seed jr, joint_rand_seed p ctx public = Ok seed /\ msg = Some seed /\
     joint_rands p ctx seed = Ok jr /\
     forall j, j < S_ -> exists ms ps blind,
       expand_input_share p ctx j (is j) = Ok (ms, ps, Some blind) /\
       joint_rand_part p ctx j blind ms nonce = Ok (nth j public []) /\
       verify_joint_rand p ctx j (Some blind) ms nonce (Some public) = Ok (Some seed, Some (nth j public []), jr))
  \/ seed_collision xof.
Proof.
  intros HJ Hl HF Hi Hm Hn.
  pose proof (po_shares _ _ HO) as HS. pose proof (po_seed _ _ HO) as Hsz.
  apply message_Ok in Hm as (parts & s & Hsnd & Hs & ->); [|easy].
  rewrite map_map in Hsnd.
  assert (Lparts : length parts = S_).
  { apply (f_equal (@length _)) in Hsnd. rewrite !map_length, seq_length in Hsnd. easy. }
  (* per aggregator *)
  assert (HA : forall j, j < S_ -> exists ms ps blind jr, expand_input_share p ctx j (is j) = Ok (ms, ps, Some blind) /\
    joint_rand_part p ctx j blind ms nonce = Ok (nth j parts []) /\
    joint_rand_seed p ctx (upd public j (nth j parts [])) = Ok s /\ joint_rands p ctx s = Ok jr).
  { intros j Hj. pose proof (Hi j Hj) as H. destruct (st j) as [out seed] eqn:Est, (sh j) as [v part] eqn:Esh.
    apply verify_init_joint in H as (ms & ps & blind & jr & He & Hv); [|easy].
    apply verify_joint_rand_Ok in Hv as (b & prts & pt & sd & -> & E & -> & -> & H1 & H2 & H3 & H4); [|easy].
    injection E as <-.
    destruct (Hn j Hj) as [o Ho]. rewrite Est in Ho. apply verify_next_iff in Ho as [Ho _]. injection Ho as <-.
    assert (Ep : pt = nth j parts []).
    { apply (f_equal (fun l => nth j l None)) in Hsnd. rewrite nth_seq_map in Hsnd by easy.
      rewrite Esh in Hsnd. cbn [snd] in Hsnd. rewrite (nth_map' _ _ _ ([] : bytes)) in Hsnd by lia. now injection Hsnd. }
    subst pt. exists ms, ps, b, jr. easy. }
  assert (HFp : Forall (fun x => length x = SEED_SIZE xof) parts).
  { apply Forall_forall. intros x Hx. apply (In_nth _ _ []) in Hx as (j & Hj & <-).
    assert (Hj' : j < S_) by (rewrite <- Lparts; exact Hj). destruct (HA j Hj') as (? & ? & ? & ? & _ & H & _). now apply part_length in H. }
  assert (HB : forall j, j < S_ -> upd public j (nth j parts []) = parts \/ seed_collision xof).
  { intros j Hj. destruct (HA j Hj) as (ms & ps & b & jr & _ & H1 & H2 & _).
    eapply seed_binding; [exact Hsz | | exact HFp | exact H2 | exact Hs].
    apply Forall_forall. intros x Hx. apply (In_nth _ _ []) in Hx as (i & Hi' & <-).
    rewrite length_upd in Hi'. rewrite nth_upd by lia. destruct (j =? i) eqn:E.
    - now apply part_length in H1.
    - rewrite Forall_forall in HF. apply HF. now apply nth_In. }
  destruct (HB 0) as [B0|]; [lia| |now right]. destruct (HB 1) as [B1|]; [lia| |now right].
  left.
  assert (E : public = parts).
  { apply (nth_ext' ([] : bytes)); [exact (eq_trans Hl (eq_sym Lparts))|]. intros i Hi'.
    destruct i as [|i].
    - rewrite <- B1. rewrite nth_upd by (unfold bytes in *; lia). easy.
    - rewrite <- B0. rewrite nth_upd by (unfold bytes in *; lia). easy. }
  subst parts. destruct (HA 0) as (_ & _ & _ & jr & _ & _ & _ & Hjr); [lia|].
  exists s, jr. split; [easy|]. split; [easy|]. split; [easy|].
  intros j Hj. destruct (HA j Hj) as (ms & ps & b & jr' & H1 & H2 & H3 & _). exists ms, ps, b.
  split; [easy|]. split; [easy|]. unfold verify_joint_rand. rewrite (proj2 (Nat.ltb_lt _ _) HJ), H2. cbn [bind].
  rewrite set_lt by (unfold bytes in *; lia). cbn [bind].
  match goal with |- bind ?m _ = _ => replace m with (Ok s : res bytes) by (symmetry; exact H3) end.
  cbn [bind]. rewrite Hjr. easy.
Qed.

(** With joint randomness, a message combining a wrong number of shares is
    rejected (or there is a collision). *)
Theorem wrong_count key ctx j nonce public is st sh shs msg o :
  0 < JOINT_RAND_LEN flp ->
  length public = S_ -> Forall (fun x => length x = SEED_SIZE xof) public ->
  Forall (fun s => blind_wf p (snd s)) shs ->
  p3_verify_init p key ctx j tt nonce (Some public) is = Ok (st, sh) ->
  p3_verifier_shares_to_message p ctx tt shs = Ok msg ->
  p3_verify_next p ctx st msg = Ok o ->
  length shs = S_ \/ seed_collision xof.
Proof.
  intros HJ Hl HF HW Hi Hm Hn. destruct st as [out seed], sh as [v part].
  apply verify_init_joint in Hi as (ms & ps & blind & jr & He & Hv); [|easy].
  apply verify_joint_rand_Ok in Hv as (b & prts & pt & sd & -> & E & -> & -> & H1 & H2 & H3 & H4); [|easy].
  injection E as <-. apply verify_next_iff in Hn as [-> _].
  apply message_Ok in Hm as (parts & s & Hsnd & Hs & E); [|easy]. injection E as <-.
  destruct (seed_binding ctx (upd public j pt) parts sd (po_seed _ _ HO)) as [Eq|]; try easy.
  - apply Forall_forall. intros x Hx. apply (In_nth _ _ []) in Hx as (i & Hi' & <-).
    rewrite length_upd in Hi'. rewrite nth_upd by (unfold bytes in *; lia). destruct (j =? i) eqn:Eji.
    + now apply part_length in H1.
    + rewrite Forall_forall in HF. apply HF. now apply nth_In.
  - apply Forall_forall. intros x Hx. assert (In (Some x) (map snd shs)) as Hin by (rewrite Hsnd; now apply in_map).
    apply in_map_iff in Hin as ([a bb] & Eb & Hin). cbn [snd] in Eb. subst bb.
    rewrite Forall_forall in HW. pose proof (HW _ Hin) as W. unfold blind_wf in W.
    rewrite (proj2 (Nat.ltb_lt _ _) HJ) in W. destruct W as (y & Ey & Ly). cbn [snd] in Ey. now injection Ey as ->.
  - left. apply (f_equal (@length _)) in Hsnd. rewrite !map_length in Hsnd. rewrite Hsnd, <- Eq, length_upd. easy.
  - now right.
Qed.
End Joint.

(** ** Sizes *)
Theorem shard_sizes p ctx m nonce rand :
  (length nonce <> p3_NONCE_SIZE -> exists msg, p3_shard p ctx m nonce rand = Raise (ValueError msg)) /\
  (length rand <> RAND_SIZE p -> exists msg, p3_shard p ctx m nonce rand = Raise (ValueError msg)).
Proof.
  unfold p3_shard. split; intros H.
  - rewrite (proj2 (Nat.eqb_neq _ _) H). cbn [check bind]. eauto.
  - rewrite (proj2 (Nat.eqb_neq _ _) H). destruct (length nonce =? p3_NONCE_SIZE); cbn [check bind]; eauto.
Qed.

Theorem init_shares field xof ID vks shares (flp : Flp field) proofs :
  (is_ok (Prio3_init field xof ID vks shares flp proofs) = true <-> (2 <= shares < 256)%Z) /\
  (forall e, Prio3_init field xof ID vks shares flp proofs = Raise e -> exists msg, e = ValueError msg).
Proof.
  unfold Prio3_init. destruct (Z.leb_spec 2 shares), (Z.ltb_spec shares 256); cbn [andb is_ok]; split;
    try (split; (lia || easy)); intros e H'; try easy; injection H' as <-; eauto.
Qed.
