(** Aggregation of arbitrary Poplar1 uploads. *)
From Coq Require Import Znumtheory Permutation.
From Verif Require Import Base Common Field Vdaf Idpf Poplar1 RobustSpec RobustInst DeploySpec DeployFacts DeployInst RunSpec RunFacts PingPongSpec PingPongFacts PingPongInst.
From Verif Require Import Poplar1Spec IdpfSpec IdpfCodec Poplar1Facts Poplar1Run Poplar1End Poplar1Props Poplar1Codec Poplar1Inst VecFacts VdafFacts BaseFacts PostFacts CommonFacts FieldFacts.
Open Scope nat_scope.

Lemma val_fsuml {P : FieldClass} (HM : (0 < MODULUS P)%Z) (l : list (F P)) : val (fsuml l) = (zsuml (map val l) mod MODULUS P)%Z.
Proof.
  induction l as [|x l IH]; [reflexivity|]. cbn [map]. change (zsuml (val x :: map val l)) with (val x + zsuml (map val l))%Z.
  change (fsuml (x :: l)) with (fadd x (fsuml l)). change (val (fadd x (fsuml l))) with ((val x + val (fsuml l)) mod MODULUS P)%Z.
  rewrite IH. apply Zplus_mod_idemp_r.
Qed.
Lemma zsuml_app a b : zsuml (a ++ b) = (zsuml a + zsuml b)%Z.
Proof. induction a as [|x a IH]; [reflexivity|]. cbn [app]. change (x + zsuml (a ++ b) = x + zsuml a + zsuml b)%Z. lia. Qed.
Lemma zsuml_pairs {A} (M : Z) (f g : A -> Z) l :
  (zsuml (map f l ++ map g l) mod M = zsuml (map (fun o => (f o + g o) mod M) l) mod M)%Z.
Proof.
  rewrite zsuml_app. induction l as [|o l IH]; [reflexivity|]. cbn [map].
  change (zsuml (f o :: map f l)) with (f o + zsuml (map f l))%Z. change (zsuml (g o :: map g l)) with (g o + zsuml (map g l))%Z.
  change (zsuml (((f o + g o) mod M)%Z :: map (fun o => (f o + g o) mod M)%Z l)) with ((f o + g o) mod M + zsuml (map (fun o => (f o + g o) mod M) l))%Z.
  rewrite Zplus_mod_idemp_l, (Zplus_mod (f o + g o)), <- IH, <- Zplus_mod. f_equal. lia.
Qed.
Lemma uploaded_cons (V : Vdaf) ctx r ms u : upload V ctx r = Ok u -> uploaded V ctx (r :: ms) = u :: uploaded V ctx ms.
Proof. intros E. cbn [uploaded]. now rewrite E. Qed.
Section R1.
Context (p : Poplar1) (lim : Z) (HO : Poplar1Ok p lim).
Context (HWi : wf_field (id_field_inner (p1_idpf p))) (HWl : wf_field (id_field_leaf (p1_idpf p))) (Hfit : p1_message_fits p).
Context (Hpi : prime (MODULUS (id_field_inner (p1_idpf p)))) (Hpl : prime (MODULUS (id_field_leaf (p1_idpf p)))).
Context (ctx agg_param : bytes) (Hc : ctx_ok ctx) (level : nat) (prefixes : list (list bool)).
Context (DA : p1_decode_agg_param agg_param = Ok (Z.of_nat level, prefixes)).
Notation Pi := (id_field_inner (p1_idpf p)).
Notation Pl := (id_field_leaf (p1_idpf p)).
Notation V := (p1_vdaf p).
Notation ap := (Z.of_nat level, prefixes).
Notation n := (length prefixes).
Notation M := (level_modulus p level).

(** Both Aggregators finish only if they could decode their shares. *)
Lemma verified_execute key u o0 o1 : pp_verified V ctx key agg_param u = Some (o0, o1) <->
  exists ps is0 is1, p1_decode_public_share p (snd (fst (fst u))) = Ok ps /\
    p1_decode_input_share p 0 (snd (fst u)) = Ok is0 /\ p1_decode_input_share p 1 (snd u) = Ok is1 /\
    p1_execute p key ctx ap (nonce_of u) ps is0 is1 = Ok (o0, o1).
Proof.
  destruct u as (((nonce & bps) & b0) & b1). cbn [nonce_of fst snd]. split.
  - intros PV. assert (PO : pp_outputs V (pp_run V ctx key agg_param nonce bps b0 b1) o0 o1) by (apply outputs_verified; exact PV).
    destruct (outputs_decode V ctx key agg_param nonce bps b0 b1 o0 o1 PO) as (ps & is0 & is1 & D & D0 & D1).
    exists ps, is0, is1. split; [exact D|]. split; [exact D0|]. split; [exact D1|].
    exact (proj1 (p1_ping_pong p HWi HWl key ctx agg_param nonce bps b0 b1 ap ps is0 is1 o0 o1 Hfit DA D D0 D1) PO).
  - intros (ps & is0 & is1 & D & D0 & D1 & E).
    pose proof (proj2 (p1_ping_pong p HWi HWl key ctx agg_param nonce bps b0 b1 ap ps is0 is1 o0 o1 Hfit DA D D0 D1) E) as PO.
    apply outputs_verified in PO. exact PO.
Qed.

Lemma decoded_wf (u : bytes * bytes * bytes * bytes) ps is0 is1 : p1_decode_public_share p (snd (fst (fst u))) = Ok ps ->
  p1_decode_input_share p 0 (snd (fst u)) = Ok is0 -> p1_decode_input_share p 1 (snd u) = Ok is1 ->
  idpf_public_wf (p1_idpf p) ps /\ length (fst (fst (fst is0))) = id_KEY_SIZE (p1_idpf p) /\ length (fst (fst (fst is1))) = id_KEY_SIZE (p1_idpf p).
Proof.
  intros D D0 D1. destruct (pk_idpf _ _ HO) as (lim' & HI).
  pose proof (proj1 (proj2 (idpf_public_codec (p1_idpf p) HWi HWl (io_bits _ _ HI)) _ _ D)) as W.
  pose proof (proj1 (proj2 (p1_input_codec p HWi HWl 0) _ _ D0)) as W0. pose proof (proj1 (proj2 (p1_input_codec p HWi HWl 1) _ _ D1)) as W1.
  split; [exact W|]. destruct is0 as (((? & ?) & ?) & ?), is1 as (((? & ?) & ?) & ?). cbn [fst]. split; [apply W0 | apply W1].
Qed.

Lemma execute_wf key nonce ps is0 is1 o0 o1 : idpf_public_wf (p1_idpf p) ps ->
  length (fst (fst (fst is0))) = id_KEY_SIZE (p1_idpf p) -> length (fst (fst (fst is1))) = id_KEY_SIZE (p1_idpf p) ->
  p1_execute p key ctx ap nonce ps is0 is1 = Ok (o0, o1) -> p1_out_wf p ap o0 /\ p1_out_wf p ap o1.
Proof.
  intros W K0 K1 E. unfold p1_out_wf, of_class. cbn [fst snd]. destruct (level_is_inner p (Z.of_nat level)) eqn:El.
  - destruct (exec_sound_inner p lim HO Hpi ctx (Z.of_nat level) prefixes nonce ps is0 is1 Hc W K0 K1 El) as [H|(a & b & acc & La & Lb & H & _)].
    + destruct (H key) as (e & X). rewrite X in E. discriminate.
    + rewrite H in E. apply bind_Ok in E as (r & _ & E). destruct (acc r); [|discriminate]. injection E as <- <-. cbn [fv_len]. auto.
  - destruct (exec_sound_leaf p lim HO Hpl ctx (Z.of_nat level) prefixes nonce ps is0 is1 Hc W K0 K1 El) as [H|(a & b & acc & La & Lb & H & _)].
    + destruct (H key) as (e & X). rewrite X in E. discriminate.
    + rewrite H in E. apply bind_Ok in E as (r & _ & E). destruct (acc r); [|discriminate]. injection E as <- <-. cbn [fv_len]. auto.
Qed.

Lemma verified_wf key u o0 o1 : pp_verified V ctx key agg_param u = Some (o0, o1) -> p1_out_wf p ap o0 /\ p1_out_wf p ap o1.
Proof.
  intros H. apply verified_execute in H as (ps & is0 & is1 & D & D0 & D1 & E).
  destruct (decoded_wf u ps is0 is1 D D0 D1) as (W & K0 & K1). exact (execute_wf key (nonce_of u) ps is0 is1 o0 o1 W K0 K1 E).
Qed.

Lemma M_pos : (2 < M)%Z.
Proof. unfold level_modulus. destruct (_ <? _); [apply (pk_inner _ _ HO) | apply (pk_leaf _ _ HO)]. Qed.

Lemma total_vals outs : Forall (p1_out_wf p ap) outs -> fv_vals (p1_total p ap outs) = zvsum M n (map (fun o => fv_vals o) outs).
Proof.
  intros HF. unfold p1_total, level_modulus. cbn [fst snd]. rewrite (level_is_inner_nat p level). unfold zvsum.
  destruct (level <? id_BITS (p1_idpf p) - 1) eqn:El; cbn [fv_vals]; unfold vsum; rewrite !map_map; apply map_ext_in; intros i Hi.
  - change (@fint Pi) with (@val Pi). rewrite val_fsuml by (pose proof (proj2 (pk_inner _ _ HO)); lia). f_equal. rewrite !map_map. f_equal.
    apply map_ext_in. intros o Ho. rewrite Forall_forall in HF. destruct (HF o Ho) as (C & _). cbn [fst] in C.
    unfold of_class in C. rewrite level_is_inner_nat, El in C. destruct o as [v|v]; [|discriminate].
    change (fv_as Pi (Inner v : FieldVec Pi Pl)) with (fv_as Pi (Inner v : FieldVec Pi Pl)).
    rewrite (vw_as _ _ _ (view_inner p lim HO)). cbn [fv_vals]. change (0%Z) with (fint (f0 : F Pi)) at 1. now rewrite map_nth.
  - change (@fint Pl) with (@val Pl). rewrite val_fsuml by (pose proof (proj2 (pk_leaf _ _ HO)); lia). f_equal. rewrite !map_map. f_equal.
    apply map_ext_in. intros o Ho. rewrite Forall_forall in HF. destruct (HF o Ho) as (C & _). cbn [fst] in C.
    unfold of_class in C. rewrite level_is_inner_nat, El in C. destruct o as [v|v]; [discriminate|].
    rewrite (vw_as _ _ _ (view_leaf p lim HO)). cbn [fv_vals]. change (0%Z) with (fint (f0 : F Pl)) at 1. now rewrite map_nth.
Qed.
Lemma fv_vals_length (o : FieldVec Pi Pl) : length (fv_vals o) = fv_len o.
Proof. destruct o; apply map_length. Qed.

Lemma collect_total outs : Forall (p1_out_wf p ap) outs -> collect V ap outs = Ok (p1_total p ap outs).
Proof.
  intros HF. destruct (agg_total p lim HO ap outs HF) as (E & _). unfold collect.
  destruct (proj1 (field_vec_codec p HWi HWl (Z.of_nat level)) (p1_total p ap outs)) as (b & E1 & D1).
  { apply (vsum_wf p ap outs). }
  apply bind_Ok in E as (a & E2 & E3).
  change ((let* a := p1_agg_init p ap in let* a := foldM (p1_agg_update p ap) outs a in
     let* b := encode_idpf_field_vec p a in decode_at p (Z.of_nat level) b) = Ok (p1_total p ap outs)).
  rewrite E2. cbn [bind]. rewrite E3. cbn [bind]. rewrite E1. exact D1.
Qed.

Theorem p1_aggregate_robust key us : let us' := filter (counted V ctx key agg_param) us in
  aggregate V ctx key agg_param ap us = Ok (zvsum M n (map (p1_contribution p ctx key agg_param level) us')).
Proof.
  cbv zeta.
  assert (HV : Forall (fun o => p1_out_wf p ap (fst o) /\ p1_out_wf p ap (snd o)) (verified V ctx key agg_param us) /\
    map (p1_contribution p ctx key agg_param level) (filter (counted V ctx key agg_param) us)
    = map (fun o => zip_with (fun a b => (a + b) mod M)%Z (fv_vals (fst o)) (fv_vals (snd o))) (verified V ctx key agg_param us)).
  { induction us as [|u us (I1 & I2)]; [split; constructor|]. cbn [verified filter].
    replace (counted V ctx key agg_param u) with (match pp_verified V ctx key agg_param u with Some _ => true | None => false end) by reflexivity.
    destruct (pp_verified V ctx key agg_param u) as [(o0 & o1)|] eqn:PV; [|exact (conj I1 I2)].
    split; [constructor; [exact (verified_wf key u o0 o1 PV)|exact I1]|]. cbn [map fst snd]. unfold p1_contribution at 1. rewrite PV. f_equal. exact I2. }
  destruct HV as (FO & ->). unfold aggregate. set (os := verified V ctx key agg_param us) in *.
  assert (F0 : Forall (p1_out_wf p ap) (map fst os)) by (apply Forall_map; eapply Forall_impl; [|exact FO]; intros o Ho; apply Ho).
  assert (F1 : Forall (p1_out_wf p ap) (map snd os)) by (apply Forall_map; eapply Forall_impl; [|exact FO]; intros o Ho; apply Ho).
  rewrite (collect_total (map fst os) F0). cbn [bind]. rewrite (collect_total (map snd os) F1). cbn [bind].
  destruct (unshard_total1 p lim HO ap [map fst os; map snd os] [p1_total p ap (map fst os); p1_total p ap (map snd os)] (length os)) as (_ & E).
  - repeat constructor; now apply (agg_total p lim HO ap).
  - repeat constructor; assumption.
  - refine (eq_trans E _). rewrite total_vals by (cbn [concat]; rewrite app_nil_r; now apply Forall_app). f_equal.
    unfold zvsum. apply map_ext_in. intros i Hi. apply in_seq in Hi.
    cbn [concat]. rewrite app_nil_r, !map_app, !map_map, zsuml_pairs. f_equal. f_equal. apply map_ext_in. intros o Ho.
    rewrite Forall_forall in FO. destruct (FO o Ho) as ((_ & L0) & (_ & L1)). cbn [snd] in L0, L1.
    symmetry. apply (nth_zip_with (fun a b => (a + b) mod M)%Z (fv_vals (fst o)) (fv_vals (snd o)) i 0%Z 0%Z 0%Z); rewrite fv_vals_length; lia.
Qed.

Notation contrib key := (p1_contribution p ctx key agg_param level).

Lemma counted_iff key u : counted V ctx key agg_param u = true <-> exists o0 o1, pp_verified V ctx key agg_param u = Some (o0, o1).
Proof.
  unfold counted. destruct (pp_verified V ctx key agg_param u) as [(o0 & o1)|]; split; try easy.
  - intros _. now exists o0, o1.
  - intros (? & ? & H). discriminate.
Qed.

(** The outputs of an upload do not depend on the verification key, and are
    rarely released if they are wrong. *)
Lemma upload_gen (P : FieldClass) (inj : list (F P) -> FieldVec Pi Pl) (VW : View p P inj) (HM : M = MODULUS P)
  (ES : forall nonce ps is0 is1, idpf_public_wf (p1_idpf p) ps ->
    length (fst (fst (fst is0))) = id_KEY_SIZE (p1_idpf p) -> length (fst (fst (fst is1))) = id_KEY_SIZE (p1_idpf p) ->
    (forall key, exists e, p1_execute p key ctx ap nonce ps is0 is1 = Raise e) \/
    (exists (out0 out1 : list (F P)) (accept : list (F P) -> bool),
     length out0 = n /\ length out1 = n /\
     (forall key, p1_execute p key ctx ap nonce ps is0 is1 =
       let* r := verify_rand_of p P key ctx nonce (Z.of_nat level) n in
       if accept r then Ok (inj out0, inj out1) else Raise (ValueError "sketch verification failed")) /\
     (~ one_hot n (fun i => fadd (nth i out0 f0) (nth i out1 f0)) ->
      forall Q, NoDup Q -> (forall r, In r Q -> length r = n /\ accept r = true) ->
      (Z.of_nat (length Q) <= 2 * MODULUS P ^ (Z.of_nat n - 1))%Z))) u :
  (forall key, counted V ctx key agg_param u = false) \/
  exists (c : list Z) (accept : list (F P) -> bool), length c = n /\
    (forall key, counted V ctx key agg_param u
       = match verify_rand_of p P key ctx (nonce_of u) (Z.of_nat level) n with Ok r => accept r | Raise _ => false end) /\
    (forall key, counted V ctx key agg_param u = true -> contrib key u = c) /\
    (~ unit_or_zero n c -> forall Q, NoDup Q -> (forall r, In r Q -> length r = n /\ accept r = true) ->
       (Z.of_nat (length Q) <= 2 * MODULUS P ^ (Z.of_nat n - 1))%Z).
Proof.
  destruct (p1_decode_public_share p (snd (fst (fst u)))) as [ps|e] eqn:D.
  2:{ left. intros key. destruct (counted V ctx key agg_param u) eqn:C; [|reflexivity]. apply counted_iff in C as (o0 & o1 & C).
      apply verified_execute in C as (ps & is0 & is1 & D' & _). rewrite D in D'. discriminate. }
  destruct (p1_decode_input_share p 0 (snd (fst u))) as [is0|e] eqn:D0.
  2:{ left. intros key. destruct (counted V ctx key agg_param u) eqn:C; [|reflexivity]. apply counted_iff in C as (o0 & o1 & C).
      apply verified_execute in C as (ps' & is0 & is1 & _ & D' & _). rewrite D0 in D'. discriminate. }
  destruct (p1_decode_input_share p 1 (snd u)) as [is1|e] eqn:D1.
  2:{ left. intros key. destruct (counted V ctx key agg_param u) eqn:C; [|reflexivity]. apply counted_iff in C as (o0 & o1 & C).
      apply verified_execute in C as (ps' & is0' & is1 & _ & _ & D' & _). rewrite D1 in D'. discriminate. }
  assert (PV : forall key o0 o1, pp_verified V ctx key agg_param u = Some (o0, o1) <-> p1_execute p key ctx ap (nonce_of u) ps is0 is1 = Ok (o0, o1)).
  { intros key o0 o1. rewrite verified_execute. split.
    - intros (ps' & is0' & is1' & E & E0 & E1 & H). rewrite D in E. rewrite D0 in E0. rewrite D1 in E1.
      injection E as <-. injection E0 as <-. injection E1 as <-. exact H.
    - intros H. now exists ps, is0, is1. }
  destruct (decoded_wf u ps is0 is1 D D0 D1) as (W & K0 & K1).
  destruct (ES (nonce_of u) ps is0 is1 W K0 K1) as [H|(a & b & acc & La & Lb & H & HB)].
  - left. intros key. destruct (counted V ctx key agg_param u) eqn:C; [|reflexivity]. apply counted_iff in C as (o0 & o1 & C).
    apply PV in C. destruct (H key) as (e & X). rewrite X in C. discriminate.
  - right. exists (zip_with (fun x y => (x + y) mod M)%Z (map val a) (map val b)), acc.
    assert (CO : forall key, match verify_rand_of p P key ctx (nonce_of u) (Z.of_nat level) n with Ok r => acc r | Raise _ => false end = true ->
      pp_verified V ctx key agg_param u = Some (inj a, inj b)).
    { intros key HC. apply PV. rewrite H. destruct (verify_rand_of p P key ctx (nonce_of u) (Z.of_nat level) n) as [r|]; [|discriminate]. cbn [bind]. now rewrite HC. }
    assert (CE : forall key, counted V ctx key agg_param u
       = match verify_rand_of p P key ctx (nonce_of u) (Z.of_nat level) n with Ok r => acc r | Raise _ => false end).
    { intros key. destruct (match verify_rand_of p P key ctx (nonce_of u) (Z.of_nat level) n with Ok r => acc r | Raise _ => false end) eqn:C.
      - unfold counted. now rewrite (CO key C).
      - destruct (counted V ctx key agg_param u) eqn:C2; [|reflexivity]. apply counted_iff in C2 as (o0 & o1 & C2). apply PV in C2. rewrite H in C2.
        destruct (verify_rand_of p P key ctx (nonce_of u) (Z.of_nat level) n) as [r|]; [|discriminate]. cbn [bind] in C2. rewrite C in C2. discriminate. }
    split; [rewrite zip_with_length, !map_length; lia|]. split; [exact CE|]. split.
    + intros key C. rewrite CE in C. unfold p1_contribution. rewrite (CO key C), !(vw_vals _ _ _ VW). reflexivity.
    + intros HN. apply HB. intros (t & Ht). apply HN. exists t. intros i Hi. 
      rewrite (nth_zip_with _ _ _ _ 0%Z 0%Z) by (rewrite map_length; lia).
      change 0%Z with (val (f0 : F P)) at 1 2. rewrite !map_nth.
      change ((val (nth i a f0) + val (nth i b f0)) mod M)%Z with ((val (nth i a f0) + val (nth i b f0)) mod M)%Z. rewrite HM.
      change ((val (nth i a f0) + val (nth i b f0)) mod MODULUS P)%Z with (val (fadd (nth i a f0) (nth i b f0))). rewrite (Ht i Hi).
      pose proof (vw_mod _ _ _ VW). destruct (i =? t); [apply Z.mod_small; lia | reflexivity].
Qed.

Theorem upload_inner u : level < id_BITS (p1_idpf p) - 1 ->
  (forall key, counted V ctx key agg_param u = false) \/
  exists (c : list Z) (accept : list (F Pi) -> bool), length c = n /\
    (forall key, counted V ctx key agg_param u
       = match verify_rand_of p Pi key ctx (nonce_of u) (Z.of_nat level) n with Ok r => accept r | Raise _ => false end) /\
    (forall key, counted V ctx key agg_param u = true -> contrib key u = c) /\
    (~ unit_or_zero n c -> forall Q, NoDup Q -> (forall r, In r Q -> length r = n /\ accept r = true) ->
       (Z.of_nat (length Q) <= 2 * MODULUS Pi ^ (Z.of_nat n - 1))%Z).
Proof.
  intros Hl. apply (upload_gen Pi Inner (view_inner p lim HO)).
  - unfold level_modulus. now rewrite (proj2 (Nat.ltb_lt _ _) Hl).
  - intros. apply (exec_sound_inner p lim HO Hpi); try easy. rewrite level_is_inner_nat. now apply Nat.ltb_lt.
Qed.
Theorem upload_leaf u : id_BITS (p1_idpf p) - 1 <= level ->
  (forall key, counted V ctx key agg_param u = false) \/
  exists (c : list Z) (accept : list (F Pl) -> bool), length c = n /\
    (forall key, counted V ctx key agg_param u
       = match verify_rand_of p Pl key ctx (nonce_of u) (Z.of_nat level) n with Ok r => accept r | Raise _ => false end) /\
    (forall key, counted V ctx key agg_param u = true -> contrib key u = c) /\
    (~ unit_or_zero n c -> forall Q, NoDup Q -> (forall r, In r Q -> length r = n /\ accept r = true) ->
       (Z.of_nat (length Q) <= 2 * MODULUS Pl ^ (Z.of_nat n - 1))%Z).
Proof.
  intros Hl. apply (upload_gen Pl Leaf (view_leaf p lim HO)).
  - unfold level_modulus. now rewrite (proj2 (Nat.ltb_ge _ _) Hl).
  - intros. apply (exec_sound_leaf p lim HO Hpl); try easy. rewrite level_is_inner_nat. now apply Nat.ltb_ge.
Qed.

(** Honest clients. *)
Context (key : bytes) (Hk : length key = p1_VERIFY_KEY_SIZE p) (ND : NoDup prefixes) (Hlev : level < id_BITS (p1_idpf p)).

Lemma param_wf : Forall (fun x => length x = S level) prefixes /\ (Z.of_nat level < 65536)%Z.
Proof.
  destruct (proj1 (proj2 agg_param_codec1 _ _ DA)) as (H1 & _ & H2). cbn [fst snd] in *. split; [|lia].
  eapply Forall_impl; [|exact H2]. intros x Hx. cbv beta in Hx. lia.
Qed.

Lemma outputs_gen (P : FieldClass) (inj : list (F P) -> FieldVec Pi Pl) (VW : View p P inj) (HM : M = MODULUS P) m nonce rand a0 a1 :
  post (run_report V key ctx ap [inj a0; inj a1] (m, nonce, rand))
    (fun aggs => exists d0 d1, length d0 = n /\ length d1 = n /\ zip_with fadd d0 d1 = hot prefixes level m /\
       aggs = [inj (zip_with fadd a0 d0); inj (zip_with fadd a1 d1)]) (fun e => e = OutOfFuel /\ p1_ran_out p n) ->
  a0 = fzeros n -> a1 = fzeros n ->
  (forall outs, vdaf_outputs V ctx ap key (m, nonce, rand) = Ok outs -> exists b0 b1, outs = [inj b0; inj b1] /\ length b0 = n /\ length b1 = n) ->
  p1_ran_out p n \/ exists o0 o1, vdaf_outputs V ctx ap key (m, nonce, rand) = Ok [o0; o1] /\
    zip_with (fun x y => (x + y) mod M)%Z (fv_vals o0) (fv_vals o1) = p1_honest prefixes level m.
Proof.
  intros R -> -> HW. pose proof (report_Ok V ctx ap key [inj (fzeros n); inj (fzeros n)] (m, nonce, rand)) as RO.
  unfold post in R. match type of R with match ?x with _ => _ end => destruct x as [aggs'|e] eqn:E end.
  - destruct R as (d0 & d1 & L0 & L1 & EH & EA). destruct (proj1 (RO aggs' eq_refl) eq_refl) as (outs & Q & Z).
    right. destruct (HW outs Q) as (b0 & b1 & -> & Lb0 & Lb1). exists (inj b0), (inj b1). split; [exact Q|].
    subst aggs'. apply zipM_Ok in Z; [|reflexivity]. destruct Z as (_ & Z).
    pose proof (Z 0 _ _ _ eq_refl eq_refl eq_refl) as Z0. pose proof (Z 1 _ _ _ eq_refl eq_refl eq_refl) as Z1.
    change (fv_add (inj (fzeros n)) (inj b0) = Ok (inj (zip_with fadd (fzeros n) d0))) in Z0.
    change (fv_add (inj (fzeros n)) (inj b1) = Ok (inj (zip_with fadd (fzeros n) d1))) in Z1.
    rewrite (vw_add _ _ _ VW), vec_add_ok in Z0 by (unfold fzeros; now rewrite repeat_length).
    rewrite (vw_add _ _ _ VW), vec_add_ok in Z1 by (unfold fzeros; now rewrite repeat_length). cbn [bind] in Z0, Z1.
    rewrite !zip_zero_l in Z0, Z1 by easy. injection Z0 as Z0. injection Z1 as Z1.
    apply (f_equal (fv_as P)) in Z0, Z1. rewrite !(vw_as _ _ _ VW) in Z0, Z1. subst b0 b1.
    rewrite !(vw_vals _ _ _ VW), HM. unfold p1_honest.
    assert (G : forall a b : list (F P), zip_with (fun x y => (x + y) mod MODULUS P)%Z (map fint a) (map fint b) = map val (zip_with fadd a b)).
    { induction a as [|x a IH]; intros [|y b]; try reflexivity. cbn [map zip_with]. f_equal. apply IH. }
    rewrite G, EH. unfold hot. rewrite map_map. apply map_ext. intros x. pose proof (vw_mod _ _ _ VW).
    destruct (list_eq_dec Bool.bool_dec x (firstn (S level) m)); [apply Z.mod_small; lia | reflexivity].
  - left. apply R.
Qed.

Theorem honest_counted1 m nonce rand : length m = id_BITS (p1_idpf p) -> length nonce = p1_NONCE_SIZE -> length rand = p1_RAND_SIZE p ->
  p1_ran_out p n \/
  exists u, upload V ctx (m, nonce, rand) = Ok u /\ nonce_of u = nonce /\
    counted V ctx key agg_param u = true /\ contrib key u = p1_honest prefixes level m.
Proof.
  intros Lm Ln Lr. destruct param_wf as (PW & L16).
  pose proof (p1_wire p lim HO HWi HWl key ctx ap (m, nonce, rand) Hc Lm Ln Lr) as W.
  pose proof (verified_one V ctx key agg_param ap eq_refl ltac:(cbn; unfold p1_ROUNDS; lia) (p1_inv p) (p1_exchangeable p HWi HWl ctx ap Hfit) DA (m, nonce, rand) W) as V1.
  assert (HOut : p1_ran_out p n \/ exists o0 o1, vdaf_outputs V ctx ap key (m, nonce, rand) = Ok [o0; o1] /\
    zip_with (fun x y => (x + y) mod M)%Z (fv_vals o0) (fv_vals o1) = p1_honest prefixes level m).
  { assert (WF : forall outs, vdaf_outputs V ctx ap key (m, nonce, rand) = Ok outs -> exists o0 o1, outs = [o0; o1] /\ p1_out_wf p ap o0 /\ p1_out_wf p ap o1).
    { intros outs Q. rewrite Q in V1. destruct V1 as (u & (o0 & o1) & _ & PV & T). exists o0, o1. split; [exact T|].
      exact (verified_wf key u o0 o1 PV). }
    destruct (Nat.ltb_spec level (id_BITS (p1_idpf p) - 1)) as [El|El].
    - apply (outputs_gen Pi Inner (view_inner p lim HO)) with (a0 := fzeros n) (a1 := fzeros n); try reflexivity.
      + unfold level_modulus. now rewrite (proj2 (Nat.ltb_lt _ _) El).
      + apply (report_inner p lim HO n); try easy; apply repeat_length.
      + intros outs Q. destruct (WF outs Q) as (o0 & o1 & -> & (C0 & L0) & (C1 & L1)). unfold of_class in C0, C1. cbn [fst snd] in *.
        rewrite level_is_inner_nat, (proj2 (Nat.ltb_lt _ _) El) in C0, C1. destruct o0 as [b0|], o1 as [b1|]; try discriminate. now exists b0, b1.
    - apply (outputs_gen Pl Leaf (view_leaf p lim HO)) with (a0 := fzeros n) (a1 := fzeros n); try reflexivity.
      + unfold level_modulus. now rewrite (proj2 (Nat.ltb_ge _ _) El).
      + apply (report_leaf p lim HO n); try easy; apply repeat_length.
      + intros outs Q. destruct (WF outs Q) as (o0 & o1 & -> & (C0 & L0) & (C1 & L1)). unfold of_class in C0, C1. cbn [fst snd] in *.
        rewrite level_is_inner_nat, (proj2 (Nat.ltb_ge _ _) El) in C0, C1. destruct o0 as [|b0], o1 as [|b1]; try discriminate. now exists b0, b1. }
  destruct HOut as [O|(o0 & o1 & Q & EH)]; [now left|]. right. rewrite Q in V1.
  destruct V1 as (u & (x0 & x1) & EU & PV & T). exists u. split; [exact EU|].
  split.
  { unfold upload in EU. apply bind_Ok in EU as ((ps & iss) & _ & EU). repeat (apply bind_Ok in EU as (? & _ & EU)). injection EU as <-. reflexivity. }
  unfold two in T. cbn [fst snd] in T. injection T as <- <-. unfold counted, p1_contribution. rewrite PV. split; [reflexivity|exact EH].
Qed.

(** Honest clients and arbitrary uploads. *)
Theorem mixed_robust ms us : p1_sizes_ok p ms -> Forall (fun r => length (fst (fst r)) = id_BITS (p1_idpf p)) ms ->
  p1_ran_out p n \/
  aggregate V ctx key agg_param ap (uploaded V ctx ms ++ us)
  = Ok (zvsum M n (map (fun x => Z.of_nat (count_prefix x (map (fun r => fst (fst r)) ms))) prefixes
                   :: map (contrib key) (filter (counted V ctx key agg_param) us))).
Proof.
  intros Hs Hm.
  assert (HU : p1_ran_out p n \/ map (contrib key) (filter (counted V ctx key agg_param) (uploaded V ctx ms))
     = map (fun r => p1_honest prefixes level (fst (fst r))) ms).
  { induction ms as [|[[m nonce] rand] ms IH]; [now right|]. unfold p1_sizes_ok in *. apply Forall_cons_iff in Hs, Hm.
    destruct Hs as ((Ln & Lr) & Hs), Hm as (Lm & Hm). destruct (IH Hs Hm) as [O|E]; [now left|].
    destruct (honest_counted1 m nonce rand Lm Ln Lr) as [O|(u & EU & _ & C & EC)]; [now left|]. right.
    match goal with |- map _ (filter _ ?x) = _ => replace x with (u :: uploaded V ctx ms) by (symmetry; exact (uploaded_cons V ctx (m, nonce, rand) ms u EU)) end.
    cbn [filter]. rewrite C. cbn [map fst]. now rewrite EC, E. }
  destruct HU as [O|E]; [now left|]. right. rewrite p1_aggregate_robust, filter_app, map_app, E. f_equal.
  unfold zvsum. apply map_ext_in. intros i Hi. apply in_seq in Hi. cbn [map]. f_equal. rewrite map_app, zsuml_app, map_map.
  match goal with |- (_ = zsuml (?x :: ?l))%Z => change (zsuml (x :: l)) with (x + zsuml l)%Z end. f_equal.
  rewrite (nth_map' (fun x => Z.of_nat (count_prefix x (map (fun r => fst (fst r)) ms))) prefixes i [] 0%Z) by lia. destruct param_wf as (PW & _). rewrite Forall_forall in PW.
  assert (Hi' : i < n) by lia. specialize (PW (nth i prefixes []) (nth_In prefixes [] Hi')). clear Hs Hm E.
  induction ms as [|r ms IH]; [reflexivity|]. cbn [map]. rewrite (count_prefix_cons level) by exact PW. rewrite Nat2Z.inj_add, <- IH.
  match goal with |- (zsuml (?x :: ?l) = _)%Z => change (zsuml (x :: l)) with (x + zsuml l)%Z end. f_equal.
  unfold p1_honest. rewrite (nth_map' _ prefixes i [] 0%Z) by lia. now destruct (list_eq_dec _ _ _).
Qed.
End R1.
