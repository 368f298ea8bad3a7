(** Vocabulary for the star topology.  Nothing here models a /repo function. *)
From Verif Require Export Star RunSpec DeploySpec RobustSpec.
Open Scope nat_scope.

Section S.
Context (vdaf : Vdaf) (ctx key agg_param : bytes) (ap : vd_AggParam vdaf).
Notation State := (vd_VerifyState vdaf).
Notation VShare := (vd_VerifierShare vdaf).

(** [I] holds of the states and verifier shares of the Leader and the Helpers as
    verification goes on, and implies that all messages survive encoding. *)
Record StarExchangeable (I : list (State * VShare) -> Prop) : Prop := {
  sx_share : forall l hs h, I (l :: hs) -> In h hs -> exists b,
    vd_encode_verifier_share vdaf (snd h) = Ok b /\ vd_decode_verifier_share vdaf (fst l) b = Ok (snd h);
  sx_msg : forall l hs msg, I (l :: hs) -> vd_verifier_shares_to_message vdaf ctx ap (map snd (l :: hs)) = Ok msg ->
    exists b, vd_encode_verifier_message vdaf msg = Ok b /\ forall h, In h hs -> vd_decode_verifier_message vdaf (fst h) b = Ok msg;
  sx_next : forall l hs msg next, I (l :: hs) -> vd_verifier_shares_to_message vdaf ctx ap (map snd (l :: hs)) = Ok msg ->
    mapM (fun x => star_continue vdaf ctx (fst x) msg) (l :: hs) = Ok next -> I next;
}.

(** A deployment as in [DeploySpec], with any number of Aggregators. *)
Definition star_upload (report : vd_Measurement vdaf * bytes * bytes) : res (bytes * bytes * list bytes) :=
  let '(measurement, nonce, rand) := report in
  let* (ps, iss) := vd_shard vdaf ctx measurement nonce rand in
  let* ps := vd_encode_public_share vdaf ps in
  let* iss := mapM (vd_encode_input_share vdaf) iss in
  Ok (nonce, ps, iss).
Definition star_verified (u : bytes * bytes * list bytes) : option (list (vd_OutShare vdaf)) :=
  let '(nonce, ps, iss) := u in
  match star_run vdaf ctx key agg_param nonce ps iss with Ok outs => Some outs | Raise _ => None end.
Fixpoint star_outputs (us : list (bytes * bytes * list bytes)) : list (list (vd_OutShare vdaf)) :=
  match us with
  | [] => []
  | u :: us => match star_verified u with Some o => o :: star_outputs us | None => star_outputs us end
  end.
Definition star_collect (outs : list (list (vd_OutShare vdaf))) (j : nat) : res (vd_AggShare vdaf) :=
  let* a := fold_outputs (vd_agg_init vdaf ap) (vd_agg_update vdaf ap) outs j in
  let* b := vd_encode_agg_share vdaf a in
  vd_decode_agg_share vdaf ap b.
Definition star_aggregate (us : list (bytes * bytes * list bytes)) : res (vd_AggResult vdaf) :=
  let outs := star_outputs us in
  let* aggs := mapM (star_collect outs) (range 0 (vd_SHARES vdaf)) in
  vd_unshard vdaf ap aggs (length outs).
Fixpoint star_uploaded (reports : list (vd_Measurement vdaf * bytes * bytes)) : list (bytes * bytes * list bytes) :=
  match reports with
  | [] => []
  | r :: reports => match star_upload r with Ok u => u :: star_uploaded reports | Raise _ => star_uploaded reports end
  end.
Definition star_deploy (reports : list (vd_Measurement vdaf * bytes * bytes)) : res (vd_AggResult vdaf) :=
  star_aggregate (star_uploaded reports).

(** The shares of the report survive encoding and [I] holds at the start. *)
Definition star_wire_ok (I : list (State * VShare) -> Prop) (r : vd_Measurement vdaf * bytes * bytes) : Prop :=
  let '(m, nonce, rand) := r in
  forall ps iss, vd_shard vdaf ctx m nonce rand = Ok (ps, iss) ->
  exists bps bs, length iss = vd_SHARES vdaf /\
    vd_encode_public_share vdaf ps = Ok bps /\ vd_decode_public_share vdaf bps = Ok ps /\
    mapM (vd_encode_input_share vdaf) iss = Ok bs /\
    (forall j b is, nth_error bs j = Some b -> nth_error iss j = Some is -> vd_decode_input_share vdaf j b = Ok is) /\
    forall init, mapM (fun j => let* is := get iss j in vd_verify_init vdaf key ctx j ap nonce ps is) (range 0 (vd_SHARES vdaf)) = Ok init ->
      I init.
End S.

(** As [deploy_result], for the star topology. *)
Definition star_result (p : Prio3) (good : list (F (p3_field p)) -> Prop) (key ctx : bytes)
  (ms : list (Measurement (p3_flp p) * bytes * bytes))
  (expected : list (Measurement (p3_flp p) * bytes * bytes) -> AggResult (p3_flp p)) : Prop :=
  ran_out p \/
  exists f, star_deploy (Prio3Vdaf p) ctx key [] tt ms = Ok (expected (filter f ms)) /\
    forall m nonce rand, In (m, nonce, rand) ms -> f (m, nonce, rand) = false <-> bad_query p good key ctx nonce.
