(** Vocabulary for C97: the steering attack on the heavy hitters protocol
    (draft-irtf-cfrg-vdaf.md:6120-6127).  Nothing here models a /repo function. *)
From Verif Require Export HeavySpec.
Open Scope nat_scope.

(** The VDAF with Aggregators that change their aggregate shares before they send
    them to the Collector. *)
Definition corrupted (V : Vdaf) (change : vd_AggParam V -> list (vd_AggShare V) -> list (vd_AggShare V)) : Vdaf := {|
  vd_Measurement := vd_Measurement V;
  vd_AggParam := vd_AggParam V; vd_PublicShare := vd_PublicShare V; vd_InputShare := vd_InputShare V;
  vd_OutShare := vd_OutShare V; vd_AggShare := vd_AggShare V; vd_AggResult := vd_AggResult V;
  vd_VerifyState := vd_VerifyState V; vd_VerifierShare := vd_VerifierShare V; vd_VerifierMessage := vd_VerifierMessage V;
  vd_ID := vd_ID V; vd_VERIFY_KEY_SIZE := vd_VERIFY_KEY_SIZE V; vd_NONCE_SIZE := vd_NONCE_SIZE V;
  vd_RAND_SIZE := vd_RAND_SIZE V; vd_SHARES := vd_SHARES V; vd_ROUNDS := vd_ROUNDS V;
  vd_shard := vd_shard V;
  vd_is_valid := vd_is_valid V; vd_verify_init := vd_verify_init V; vd_verify_next := vd_verify_next V;
  vd_verifier_shares_to_message := vd_verifier_shares_to_message V;
  vd_agg_init := vd_agg_init V; vd_agg_update := vd_agg_update V; vd_merge := vd_merge V;
  vd_unshard := fun agg_param agg_shares n => vd_unshard V agg_param (change agg_param agg_shares) n;
  vd_encode_agg_param := vd_encode_agg_param V; vd_decode_agg_param := vd_decode_agg_param V;
  vd_encode_input_share := vd_encode_input_share V; vd_decode_input_share := vd_decode_input_share V;
  vd_encode_public_share := vd_encode_public_share V; vd_decode_public_share := vd_decode_public_share V;
  vd_encode_agg_share := vd_encode_agg_share V; vd_decode_agg_share := vd_decode_agg_share V;
  vd_encode_verifier_share := vd_encode_verifier_share V; vd_decode_verifier_share := vd_decode_verifier_share V;
  vd_encode_verifier_message := vd_encode_verifier_message V; vd_decode_verifier_message := vd_decode_verifier_message V;
  vd_encode_out_share := vd_encode_out_share V; vd_decode_out_share := vd_decode_out_share V |}.

(** Aggregator [j] of Poplar1 adds [delta x] to its share of the count of every
    candidate prefix [x]. *)
Definition shifted {P : FieldClass} (delta : list bool -> Z) (prefixes : list (list bool)) (v : list (F P)) : list (F P) :=
  zip_with (fun a x => fadd a (fof (delta x))) v prefixes.
Definition steering (p : Poplar1) (j : nat) (delta : list bool -> Z) (ap : Poplar1AggParam)
  (shares : list (FieldVec (id_field_inner (p1_idpf p)) (id_field_leaf (p1_idpf p)))) :=
  upd shares j (match nth j shares (Inner []) with
                | Inner v => Inner (shifted delta (snd ap) v)
                | Leaf v => Leaf (shifted delta (snd ap) v)
                end).
Definition steered_query (p : Poplar1) (key ctx : bytes) (ms : list (list bool * bytes * bytes)) (j : nat) (delta : list bool -> Z)
  (ap : Poplar1AggParam) : res (list Z) :=
  run_vdaf (corrupted (p1_vdaf p) (steering p j delta)) key ap ctx ms.

(** The shift that makes the prefixes of [target] heavy, whatever their counts. *)
Definition towards (target : list bool) (T : Z) (x : list bool) : Z :=
  if list_eq_dec Bool.bool_dec x (firstn (length x) target) then T else 0%Z.
