(** Property C89: the encodings are the message structures of the document, in
    the presentation language of TLS. *)
From Verif Require Import WireFacts Wire WireSpec IdpfCodec Prio3Facts Prio3Props Prio3Spec Poplar1Props Poplar1Codec Poplar1Inst IdpfInst PingPongFacts Prio3Inst
  Circuits CircuitInstances Xof Field.
Open Scope nat_scope.

(** C89.  Messages of the ping-pong topology. *)
Theorem C89_pingpong :
  writes pp_message_wf (fun m => pp_encode (fst m) (snd m)) PingPongMessage pp_message_val /\
  reads pp_message_wf pp_decode PingPongMessage pp_message_val /\ only pp_message_wf pp_decode.
Proof. exact (follow _ _ _ _ _ pp_codec pp_bytes). Qed.
Print Assumptions C89_pingpong.

(** C89.  Prio3, input shares: the Leader's and the Helpers'. *)
Theorem C89_prio3_input : forall p : Prio3, wf_field (p3_field p) -> forall j,
  writes (input_share_wf p j) (p3_encode_input_share p) (Prio3InputShareStruct p j) p3_input_val /\
  reads (input_share_wf p j) (p3_decode_input_share p j) (Prio3InputShareStruct p j) p3_input_val /\
  only (input_share_wf p j) (p3_decode_input_share p j).
Proof. exact (fun p HW j => follow _ _ _ _ _ (input_share_codec p HW j) (input_bytes p HW j)). Qed.
Print Assumptions C89_prio3_input.

(** C89.  Prio3, verifier shares. *)
Theorem C89_prio3_verifier : forall p : Prio3, wf_field (p3_field p) -> forall st,
  writes (verifier_share_wf p) (p3_encode_verifier_share p) (Prio3VerifierShare p) p3_verifier_val /\
  reads (verifier_share_wf p) (p3_decode_verifier_share p st) (Prio3VerifierShare p) p3_verifier_val /\
  only (verifier_share_wf p) (p3_decode_verifier_share p st).
Proof. exact (fun p HW st => follow _ _ _ _ _ (verifier_share_codec p HW st) (verifier_bytes p HW)). Qed.
Print Assumptions C89_prio3_verifier.

(** C89.  Prio3, public shares. *)
Theorem C89_prio3_public : forall p : Prio3,
  writes (public_share_wf p) p3_encode_public_share (Prio3PublicShare p) p3_public_val /\
  (0 < JOINT_RAND_LEN (p3_flp p) ->
    reads (public_share_wf p) (p3_decode_public_share p) (Prio3PublicShare p) p3_public_val /\
    only (public_share_wf p) (p3_decode_public_share p)).
Proof.
  intros p. destruct (Nat.eq_0_gt_0_cases (JOINT_RAND_LEN (p3_flp p))) as [E|E].
  - split; [|lia]. intros s Hs. unfold public_share_wf in Hs. rewrite E in Hs. cbn in Hs. subst s. exists []. split; [reflexivity|].
    unfold Prio3PublicShare. rewrite E. reflexivity.
  - destruct (follow _ _ _ _ _ (public_share_codec p E) (public_bytes p)) as (A & B & C). split; [exact A|]. now intros _.
Qed.
Print Assumptions C89_prio3_public.

(** C89.  Prio3, verifier messages. *)
Theorem C89_prio3_message : forall p : Prio3, 0 < SEED_SIZE (p3_xof p) -> forall st,
  writes (p3_message_wf p) p3_encode_verifier_message (Prio3VerifierMessage p) p3_message_val /\
  reads (p3_message_wf p) (p3_decode_verifier_message p st) (Prio3VerifierMessage p) p3_message_val.
Proof.
  intros p HS st. apply follow_in with (W := fun m => m <> Some []); [exact (message_codec p st) | | exact (message_bytes p)].
  intros m Hm. unfold p3_message_wf, blind_wf in Hm. destruct (0 <? JOINT_RAND_LEN (p3_flp p)); [|now subst m].
  destruct Hm as (s & -> & L). intros H. injection H as ->. cbn in L. lia.
Qed.
Print Assumptions C89_prio3_message.

(** C89.  Prio3, aggregate shares. *)
Theorem C89_prio3_agg : forall p : Prio3, wf_field (p3_field p) ->
  let W (v : list (F (p3_field p))) := length v = OUTPUT_LEN (p3_flp p) in
  writes W (p3_encode_agg_share p) (Prio3AggShare p) (fun v => Vseq [vec_val v]) /\
  reads W (p3_decode_agg_share p tt) (Prio3AggShare p) (fun v => Vseq [vec_val v]).
Proof.
  intros p HW. apply follow_in with (W := fun _ => True); [exact (proj1 (share_codec p HW)) | easy |].
  exact (agg_bytes p HW).
Qed.
Print Assumptions C89_prio3_agg.

(** C89, the exceptions: decoders that also read strings that are not of the
    structure.  Without joint randomness every string is read as a public share; a
    verifier message of any length is read; and so is an aggregate share of any
    number of elements. *)
Theorem C89_lenient_refuted : forall p : Prio3, wf_field (p3_field p) ->
  (JOINT_RAND_LEN (p3_flp p) = 0 -> forall b, p3_decode_public_share p b = Ok None) /\
  (forall st b, b <> [] -> p3_decode_verifier_message p st b = Ok (Some b)) /\
  (forall v, exists b, p3_encode_agg_share p v = Ok b /\ p3_decode_agg_share p tt b = Ok v).
Proof.
  intros p HW. split; [intros H b; apply (public_share_codec_none p H)|]. split; [now intros st [|x b] H|].
  intros v. destruct (share_codec p HW) as [[C _] _]. exact (C v I).
Qed.
Print Assumptions C89_lenient_refuted.

(** C89.  Poplar1, public shares. *)
Theorem C89_poplar1_public : forall p : Poplar1,
  wf_field (id_field_inner (p1_idpf p)) -> wf_field (id_field_leaf (p1_idpf p)) -> 0 < id_BITS (p1_idpf p) ->
  writes (idpf_public_wf (p1_idpf p)) (p1_encode_public_share p) (Poplar1PublicShareStruct p) p1_public_val /\
  reads (idpf_public_wf (p1_idpf p)) (p1_decode_public_share p) (Poplar1PublicShareStruct p) p1_public_val /\
  only (idpf_public_wf (p1_idpf p)) (p1_decode_public_share p).
Proof. exact (fun p Hi Hl HB => follow _ _ _ _ _ (idpf_public_codec (p1_idpf p) Hi Hl HB) (p1_public_bytes p Hi Hl HB)). Qed.
Print Assumptions C89_poplar1_public.

(** C89.  Poplar1, input shares. *)
Theorem C89_poplar1_input : forall p : Poplar1,
  wf_field (id_field_inner (p1_idpf p)) -> wf_field (id_field_leaf (p1_idpf p)) -> 0 < id_BITS (p1_idpf p) -> forall j,
  writes (p1_input_share_wf p) (p1_encode_input_share p) (Poplar1InputShareStruct p) p1_input_val /\
  reads (p1_input_share_wf p) (p1_decode_input_share p j) (Poplar1InputShareStruct p) p1_input_val /\
  only (p1_input_share_wf p) (p1_decode_input_share p j).
Proof. intros p Hi Hl HB j. exact (follow _ _ _ _ _ (p1_input_codec p Hi Hl j) (fun s b => p1_input_bytes p Hi Hl HB s b eq_refl)). Qed.
Print Assumptions C89_poplar1_input.

(** C89.  Poplar1, verifier shares: three elements in the first round, one in the
    second. *)
Theorem C89_poplar1_verifier : forall p : Poplar1,
  wf_field (id_field_inner (p1_idpf p)) -> wf_field (id_field_leaf (p1_idpf p)) ->
  forall st : Poplar1VerifyState p,
  let level := snd (fst st) in
  let W n v := of_class p level v /\ fv_len v = n in
  (writes (W 3) (p1_encode_verifier_share p) (Poplar1RoundOne p (level_is_inner p level)) fvec_val /\
   reads (W 3) (p1_decode_verifier_share p st) (Poplar1RoundOne p (level_is_inner p level)) fvec_val) /\
  (writes (W 1) (p1_encode_verifier_share p) (Poplar1RoundTwo p (level_is_inner p level)) felem_val /\
   reads (W 1) (p1_decode_verifier_share p st) (Poplar1RoundTwo p (level_is_inner p level)) felem_val).
Proof.
  intros p Hi Hl st level W. pose proof (field_vec_codec p Hi Hl (snd (fst st))) as C. split.
  - apply (follow_in _ (W 3) _ _ _ _ C); [intros v H; apply H|]. intros v b [H1 H2] E.
    pose proof (fvec_struct p Hi Hl level v b H1 E) as X. rewrite H2 in X. exact X.
  - apply (follow_in _ (W 1) _ _ _ _ C); [intros v H; apply H|]. intros v b [H1 H2] E.
    exact (felem_struct p Hi Hl level v b H1 H2 E).
Qed.
Print Assumptions C89_poplar1_verifier.

(** C89.  Poplar1, verifier messages: the sum of the first round, nothing in the
    second. *)
Theorem C89_poplar1_message : forall p : Poplar1,
  wf_field (id_field_inner (p1_idpf p)) -> wf_field (id_field_leaf (p1_idpf p)) ->
  forall st : Poplar1VerifyState p,
  let level := snd (fst st) in
  let W1 m := match m with Some v => of_class p level v /\ fv_len v = 3 | None => False end in
  let W2 m := m = None in
  (writes W1 (p1_encode_verifier_message p) (Poplar1RoundOne p (level_is_inner p level)) p1_message_val /\
   reads W1 (p1_decode_verifier_message p st) (Poplar1RoundOne p (level_is_inner p level)) p1_message_val) /\
  (writes W2 (p1_encode_verifier_message p) Poplar1EmptyMessage p1_message_val /\
   reads W2 (p1_decode_verifier_message p st) Poplar1EmptyMessage p1_message_val).
Proof.
  intros p Hi Hl st level W1 W2. pose proof (p1_message_codec p Hi Hl st) as C. split.
  - apply (follow_in _ W1 _ _ _ _ C).
    + intros [v|]; [intros [H1 H2]; split; [exact H1|rewrite H2; lia]|intros []].
    + intros [v|] b H E; [|destruct H]. destruct H as [H1 H2].
      pose proof (fvec_struct p Hi Hl level v b H1 E) as X. rewrite H2 in X. exact X.
  - apply (follow_in _ W2 _ _ _ _ C); [now intros m ->|]. intros m b -> E. cbn in E. now injection E as <-.
Qed.
Print Assumptions C89_poplar1_message.

(** C89.  Poplar1, aggregate shares: one element for each prefix. *)
Theorem C89_poplar1_agg : forall p : Poplar1,
  wf_field (id_field_inner (p1_idpf p)) -> wf_field (id_field_leaf (p1_idpf p)) ->
  forall ap : Poplar1AggParam,
  let n := length (snd ap) in
  let W v := of_class p (fst ap) v /\ fv_len v = n in
  writes W (p1_encode_agg_share p) (Poplar1AggShareStruct p (level_is_inner p (fst ap)) n) fvec_val /\
  reads W (p1_decode_agg_share p ap) (Poplar1AggShareStruct p (level_is_inner p (fst ap)) n) fvec_val.
Proof.
  intros p Hi Hl ap n W. apply (follow_in _ W _ _ _ _ (field_vec_codec p Hi Hl (fst ap))); [intros v H; apply H|].
  intros v b [H1 H2] E. pose proof (fvec_struct p Hi Hl (fst ap) v b H1 E) as X. rewrite H2 in X. exact X.
Qed.
Print Assumptions C89_poplar1_agg.

(** C89.  Poplar1, aggregation parameters. *)
Theorem C89_agg_param : forall level n,
  let W (ap : Poplar1AggParam) := agg_param_wf ap /\ fst ap = level /\ length (snd ap) = n in
  writes W p1_encode_agg_param (Poplar1AggParamStruct level n) p1_param_val /\
  reads W p1_decode_agg_param (Poplar1AggParamStruct level n) p1_param_val /\
  only agg_param_wf p1_decode_agg_param.
Proof.
  intros level n W.
  destruct (follow_in agg_param_wf W _ _ (Poplar1AggParamStruct level n) p1_param_val agg_param_codec1) as [A B];
    [intros v H; apply H | intros v b (H1 & H2 & H3); apply param_bytes; easy |].
  split; [exact A|]. split; [exact B|]. intros b x E. exact (proj1 (proj2 agg_param_codec1 b x E)).
Qed.
Print Assumptions C89_agg_param.

(** Each structure, at a concrete object. *)
Definition toy_ts : TurboShake := fun m _ i => nth (i * i mod 97) (m ++ zeros 97) x07.
Example C89_example :
  wire PingPongMessage (pp_message_val (1%Z, [[x07; x08]; []])) = Some [x01; x00; x00; x00; x02; x07; x08; x00; x00; x00; x00] /\
  wire PingPongMessage (pp_message_val (3%Z, [[x07]])) = None /\
  wire (Poplar1AggParamStruct 8 2) (p1_param_val (8%Z, [[true; false; false; false; false; false; false; true; true]; repeat true 9])) =
    Some [x00; x08; x00; x00; x00; x02; x81; x80; xff; x80].
Proof. repeat split; reflexivity. Qed.

Example C89_prio3_example : let p := prio3_obj Field64 1 (Count Field64) toy_ts 50 2 1 in
  wf_field (p3_field p) /\ 0 < SEED_SIZE (p3_xof p) /\ input_share_wf p 1 (Helper (zeros 32) None) /\
  wire (Prio3InputShareStruct p 1) (p3_input_val (Helper (P := Field64) (zeros 32) None)) = Some (zeros 32) /\
  wire (Prio3AggShare p) (Vseq [vec_val [fof (P := Field64) 258]]) = Some [x02; x01; x00; x00; x00; x00; x00; x00] /\
  wire (Prio3AggShare p) (Vseq [vec_val [fof (P := Field64) 258; fof (P := Field64) 1]]) = None.
Proof.
  cbv zeta. split; [apply idpf_fields_wf|]. split; [cbn; lia|]. split; [split; [lia|split; reflexivity]|].
  split; [vm_compute; reflexivity|]. split; vm_compute; reflexivity.
Qed.

Example C89_poplar1_example : let p := p1_obj toy_ts (fun k b => b) 50 9 in
  wf_field (id_field_inner (p1_idpf p)) /\ wf_field (id_field_leaf (p1_idpf p)) /\ 0 < id_BITS (p1_idpf p) /\
  of_class p 0 (Inner [fof (P := Field64) 5]) /\
  wire (Poplar1RoundTwo p true) (felem_val (Pl := Field255) (Inner [fof (P := Field64) 5])) = Some [x05; x00; x00; x00; x00; x00; x00; x00].
Proof.
  cbv zeta. split; [apply idpf_fields_wf|]. split; [apply idpf_fields_wf|]. split; [cbn; lia|]. split; vm_compute; reflexivity.
Qed.
