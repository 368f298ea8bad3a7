(** Clients, a Leader, a Helper and a Collector that exchange only encoded
    messages: the clients shard and upload their reports, the Aggregators verify
    each report with the ping-pong functions and accumulate the output shares of
    the reports both finish, the Collector decodes and unshards the aggregate
    shares.  Nothing here models a /repo function. *)
From Verif Require Export PingPongSpec RunSpec.
Open Scope nat_scope.

Section D.
Context (vdaf : Vdaf) (ctx key agg_param : bytes) (ap : vd_AggParam vdaf).

(** The Client: the encoded public share and input shares of a report. *)
Definition upload (report : vd_Measurement vdaf * bytes * bytes) : res (bytes * bytes * bytes * bytes) :=
  let '(measurement, nonce, rand) := report in
  let* (ps, iss) := vd_shard vdaf ctx measurement nonce rand in
  let* is0 := get iss 0 in
  let* is1 := get iss 1 in
  let* ps := vd_encode_public_share vdaf ps in
  let* is0 := vd_encode_input_share vdaf is0 in
  let* is1 := vd_encode_input_share vdaf is1 in
  Ok (nonce, ps, is0, is1).

(** The Aggregators: the output shares of an uploaded report, if verification
    finishes on both sides. *)
Definition pp_verified (report : bytes * bytes * bytes * bytes) : option (vd_OutShare vdaf * vd_OutShare vdaf) :=
  let '(nonce, ps, is0, is1) := report in
  match pp_run vdaf ctx key agg_param nonce ps is0 is1 with
  | Ok (leader, helper) =>
    match pp_output vdaf leader, pp_output vdaf helper with Some o0, Some o1 => Some (o0, o1) | _, _ => None end
  | Raise _ => None
  end.

(** The output shares of all uploads that are verified. *)
Fixpoint verified (uploads : list (bytes * bytes * bytes * bytes)) : list (vd_OutShare vdaf * vd_OutShare vdaf) :=
  match uploads with
  | [] => []
  | u :: uploads => match pp_verified u with Some o => o :: verified uploads | None => verified uploads end
  end.

(** The aggregate share of one Aggregator, sent to the Collector. *)
Definition collect (outs : list (vd_OutShare vdaf)) : res (vd_AggShare vdaf) :=
  let* a := vd_agg_init vdaf ap in
  let* a := foldM (vd_agg_update vdaf ap) outs a in
  let* b := vd_encode_agg_share vdaf a in
  vd_decode_agg_share vdaf ap b.

(** Aggregation of the uploads, which may come from anybody. *)
Definition aggregate (uploads : list (bytes * bytes * bytes * bytes)) : res (vd_AggResult vdaf) :=
  let outs := verified uploads in
  let* a0 := collect (map fst outs) in
  let* a1 := collect (map snd outs) in
  vd_unshard vdaf ap [a0; a1] (length outs).

(** The uploads of the clients who can make one. *)
Fixpoint uploaded (reports : list (vd_Measurement vdaf * bytes * bytes)) : list (bytes * bytes * bytes * bytes) :=
  match reports with
  | [] => []
  | r :: reports => match upload r with Ok u => u :: uploaded reports | Raise _ => uploaded reports end
  end.

(** The whole deployment. *)
Definition deploy (reports : list (vd_Measurement vdaf * bytes * bytes)) : res (vd_AggResult vdaf) :=
  aggregate (uploaded reports).

(** What the theorem on deployments needs of a report: its shares survive encoding
    and [I] (see [Exchangeable]) holds at the start. *)
Definition wire_ok
  (I : vd_VerifyState vdaf -> vd_VerifierShare vdaf -> vd_VerifyState vdaf -> vd_VerifierShare vdaf -> Prop)
  (r : vd_Measurement vdaf * bytes * bytes) : Prop :=
  let '(m, nonce, rand) := r in
  forall ps iss, vd_shard vdaf ctx m nonce rand = Ok (ps, iss) ->
  exists is0 is1 bps b0 b1, iss = [is0; is1] /\
    vd_encode_public_share vdaf ps = Ok bps /\ vd_decode_public_share vdaf bps = Ok ps /\
    vd_encode_input_share vdaf is0 = Ok b0 /\ vd_decode_input_share vdaf 0 b0 = Ok is0 /\
    vd_encode_input_share vdaf is1 = Ok b1 /\ vd_decode_input_share vdaf 1 b1 = Ok is1 /\
    forall st0 s0 st1 s1, vd_verify_init vdaf key ctx 0 ap nonce ps is0 = Ok (st0, s0) ->
      vd_verify_init vdaf key ctx 1 ap nonce ps is1 = Ok (st1, s1) -> I st0 s0 st1 s1.

(** Direct verification of the report succeeds. *)
Definition report_accepted (r : vd_Measurement vdaf * bytes * bytes) : bool := match vdaf_outputs vdaf ctx ap key r with Ok _ => true | Raise _ => false end.
End D.
