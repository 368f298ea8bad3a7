(** Property C68: a Poplar1 deployment (as in Props_Deploy.v) in which anybody may
    upload anything. *)
From Verif Require Import DeploySpec RobustSpec Robust1 PingPong PingPongSpec PingPongInst RunSpec.
From Verif Require Import Poplar1 Poplar1Spec Poplar1Props Poplar1Inst Props_Poplar1 Roots Field FieldProofs Vdaf Xof XofSpec IdpfInst Idpf.
Open Scope nat_scope.

(** C68.  Whatever strings are uploaded, the Collector obtains the sum of the
    contributions of the uploads that count, ... *)
Theorem C68_aggregate : forall ts aes bound bits,
  (forall k b, length b = 16 -> length (aes k b) = 16) -> (Z.of_nat bound < 2 ^ 120)%Z -> 0 < bits ->
  let p := p1_obj ts aes bound bits in
  forall key ctx agg_param level prefixes us,
  p1_decode_agg_param agg_param = Ok (Z.of_nat level, prefixes) -> ctx_ok ctx ->
  aggregate (p1_vdaf p) ctx key agg_param (Z.of_nat level, prefixes) us
  = Ok (zvsum (level_modulus p level) (length prefixes)
         (map (p1_contribution p ctx key agg_param level) (filter (counted (p1_vdaf p) ctx key agg_param) us))).
Proof.
  intros ts aes bound bits Ha Hb H0 p key ctx agg_param level prefixes us DA Hc.
  destruct (p1_obj_ok ts aes bound bits Ha Hb H0) as (lim & HO).
  exact (p1_aggregate_robust p lim HO (proj1 idpf_fields_wf) (proj2 idpf_fields_wf) ltac:(split; vm_compute; reflexivity)
    prime_Field64 prime_Field255 ctx agg_param Hc level prefixes DA key us).
Qed.
Print Assumptions C68_aggregate.

(** ... the contribution of an upload is fixed before the Aggregators draw their
    verification key, and if it is neither zero nor one at a single prefix and zero
    at the others, at most 2 |F|^(n-1) of the |F|^n vectors of verification
    randomness let the upload count, ... *)
Theorem C68_inner : forall ts aes bound bits,
  (forall k b, length b = 16 -> length (aes k b) = 16) -> (Z.of_nat bound < 2 ^ 120)%Z -> 0 < bits ->
  let p := p1_obj ts aes bound bits in
  forall ctx agg_param level prefixes (u : bytes * bytes * bytes * bytes),
  p1_decode_agg_param agg_param = Ok (Z.of_nat level, prefixes) -> ctx_ok ctx -> level < bits - 1 ->
  let n := length prefixes in
  (forall key, counted (p1_vdaf p) ctx key agg_param u = false) \/
  exists (c : list Z) (accept : list (F Field64) -> bool), length c = n /\
    (forall key, counted (p1_vdaf p) ctx key agg_param u
       = match verify_rand_of p Field64 key ctx (nonce_of u) (Z.of_nat level) n with Ok r => accept r | Raise _ => false end) /\
    (forall key, counted (p1_vdaf p) ctx key agg_param u = true -> p1_contribution p ctx key agg_param level u = c) /\
    (~ unit_or_zero n c -> forall Q, NoDup Q -> (forall r, In r Q -> length r = n /\ accept r = true) ->
       (Z.of_nat (length Q) <= 2 * MODULUS Field64 ^ (Z.of_nat n - 1))%Z).
Proof.
  intros ts aes bound bits Ha Hb H0 p ctx agg_param level prefixes u DA Hc Hl.
  destruct (p1_obj_ok ts aes bound bits Ha Hb H0) as (lim & HO).
  exact (upload_inner p lim HO (proj1 idpf_fields_wf) (proj2 idpf_fields_wf) ltac:(split; vm_compute; reflexivity)
    prime_Field64 ctx agg_param Hc level prefixes DA u Hl).
Qed.
Print Assumptions C68_inner.

Theorem C68_leaf : forall ts aes bound bits,
  (forall k b, length b = 16 -> length (aes k b) = 16) -> (Z.of_nat bound < 2 ^ 120)%Z -> 0 < bits ->
  let p := p1_obj ts aes bound bits in
  forall ctx agg_param level prefixes (u : bytes * bytes * bytes * bytes),
  p1_decode_agg_param agg_param = Ok (Z.of_nat level, prefixes) -> ctx_ok ctx -> bits - 1 <= level ->
  let n := length prefixes in
  (forall key, counted (p1_vdaf p) ctx key agg_param u = false) \/
  exists (c : list Z) (accept : list (F Field255) -> bool), length c = n /\
    (forall key, counted (p1_vdaf p) ctx key agg_param u
       = match verify_rand_of p Field255 key ctx (nonce_of u) (Z.of_nat level) n with Ok r => accept r | Raise _ => false end) /\
    (forall key, counted (p1_vdaf p) ctx key agg_param u = true -> p1_contribution p ctx key agg_param level u = c) /\
    (~ unit_or_zero n c -> forall Q, NoDup Q -> (forall r, In r Q -> length r = n /\ accept r = true) ->
       (Z.of_nat (length Q) <= 2 * MODULUS Field255 ^ (Z.of_nat n - 1))%Z).
Proof.
  intros ts aes bound bits Ha Hb H0 p ctx agg_param level prefixes u DA Hc Hl.
  destruct (p1_obj_ok ts aes bound bits Ha Hb H0) as (lim & HO).
  exact (upload_leaf p lim HO (proj1 idpf_fields_wf) (proj2 idpf_fields_wf) ltac:(split; vm_compute; reflexivity)
    prime_Field255 ctx agg_param Hc level prefixes DA u Hl).
Qed.
Print Assumptions C68_leaf.

(** ... the upload of an honest client counts and contributes one to the prefix of
    the measurement, ... *)
Theorem C68_honest : forall ts aes bound bits,
  (forall k b, length b = 16 -> length (aes k b) = 16) -> (Z.of_nat bound < 2 ^ 120)%Z -> 0 < bits ->
  let p := p1_obj ts aes bound bits in
  forall key ctx agg_param level prefixes m nonce rand,
  p1_decode_agg_param agg_param = Ok (Z.of_nat level, prefixes) -> ctx_ok ctx -> NoDup prefixes -> length key = 32 -> level < bits ->
  length m = bits -> length nonce = 16 -> length rand = 128 ->
  p1_ran_out p (length prefixes) \/
  exists u, upload (p1_vdaf p) ctx (m, nonce, rand) = Ok u /\ nonce_of u = nonce /\
    counted (p1_vdaf p) ctx key agg_param u = true /\ p1_contribution p ctx key agg_param level u = p1_honest prefixes level m.
Proof.
  intros ts aes bound bits Ha Hb H0 p key ctx agg_param level prefixes m nonce rand DA Hc ND Hk Hl Lm Ln Lr.
  destruct (p1_obj_ok ts aes bound bits Ha Hb H0) as (lim & HO).
  exact (honest_counted1 p lim HO (proj1 idpf_fields_wf) (proj2 idpf_fields_wf) ltac:(split; vm_compute; reflexivity)
    prime_Field64 prime_Field255 ctx agg_param Hc level prefixes DA key Hk ND Hl m nonce rand Lm Ln Lr).
Qed.
Print Assumptions C68_honest.

(** ... and altogether the Collector obtains, modulo the characteristic, the number
    of honest measurements with each prefix plus the contributions of the other
    uploads that count. *)
Theorem C68_mixed : forall ts aes bound bits,
  (forall k b, length b = 16 -> length (aes k b) = 16) -> (Z.of_nat bound < 2 ^ 120)%Z -> 0 < bits ->
  let p := p1_obj ts aes bound bits in
  forall key ctx agg_param level prefixes ms us,
  p1_decode_agg_param agg_param = Ok (Z.of_nat level, prefixes) -> ctx_ok ctx -> NoDup prefixes -> length key = 32 -> level < bits ->
  p1_sizes_ok p ms -> Forall (fun r => length (fst (fst r)) = bits) ms ->
  p1_ran_out p (length prefixes) \/
  aggregate (p1_vdaf p) ctx key agg_param (Z.of_nat level, prefixes) (uploaded (p1_vdaf p) ctx ms ++ us)
  = Ok (zvsum (level_modulus p level) (length prefixes)
         (map (fun x => Z.of_nat (count_prefix x (map (fun r => fst (fst r)) ms))) prefixes
          :: map (p1_contribution p ctx key agg_param level) (filter (counted (p1_vdaf p) ctx key agg_param) us))).
Proof.
  intros ts aes bound bits Ha Hb H0 p key ctx agg_param level prefixes ms us DA Hc ND Hk Hl Hs Hm.
  destruct (p1_obj_ok ts aes bound bits Ha Hb H0) as (lim & HO).
  exact (mixed_robust p lim HO (proj1 idpf_fields_wf) (proj2 idpf_fields_wf) ltac:(split; vm_compute; reflexivity)
    prime_Field64 prime_Field255 ctx agg_param Hc level prefixes DA key Hk ND Hl ms us Hs Hm).
Qed.
Print Assumptions C68_mixed.

(** Two honest clients, one whose shares got mixed up with those of another, and
    two strings of garbage. *)
Definition toy_uploads1 := uploaded (p1_vdaf toy_p1) [x09] toy_reports.
Definition mixed_up1 := match toy_uploads1 with
  | [(n, ps, is0, _); (_, _, _, is1)] => [(n, ps, is0, is1)]
  | _ => []
  end.
Definition toy_garbage1 : list (bytes * bytes * bytes * bytes) :=
  [([], [], [], []); (zeros 16, [x05], repeat x07 112, repeat x08 32)].
Example C68_example : exists agg_param,
  p1_encode_agg_param (0%Z, [[false]; [true]]) = Ok agg_param /\ p1_decode_agg_param agg_param = Ok (0%Z, [[false]; [true]]) /\
  map (counted (p1_vdaf toy_p1) [x09] (repeat x07 32) agg_param) (toy_uploads1 ++ mixed_up1 ++ toy_garbage1) = [true; true; false; false; false] /\
  aggregate (p1_vdaf toy_p1) [x09] (repeat x07 32) agg_param (0%Z, [[false]; [true]]) (toy_uploads1 ++ mixed_up1 ++ toy_garbage1) = Ok [0; 2]%Z.
Proof. eexists. split; [vm_compute; reflexivity|]. repeat apply conj; vm_compute; reflexivity. Qed.
