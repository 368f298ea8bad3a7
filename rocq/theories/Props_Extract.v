(** Property C106: what the IDPF keys and the public share of a malicious Client
    can evaluate to (draft-irtf-cfrg-vdaf.md:6116-6150). *)
From Verif Require Import ExtractFacts DoubleFacts IdpfFacts PostFacts Poplar1Inst Props_Poplar1 Props_Votes VotesSpec ForgeSpec BaseFacts.
From Coq Require Import List ZArith Lia.
Import ListNotations.
Open Scope nat_scope.

(** C106.  Whatever the keys and the public share are, the evaluations of the two
    Aggregators at a prefix add up to [w0 - w1 + (c0 - c1) * payload], where the
    payload is the one of the level and the rest does not depend on payloads. *)
Theorem C106_shape : forall (i : Idpf) (lim : Z), IdpfOk i lim -> forall ctx nonce words key0 key1 level prefix,
  ctx_ok ctx -> words_wf i words -> length key0 = id_KEY_SIZE i -> length key1 = id_KEY_SIZE i ->
  level < id_BITS i -> length prefix = S level ->
  idpf_ran_out i \/ exists s0 c0 w0 s1 c1 w1,
    node i ctx nonce 0 words key0 prefix (S level) = Ok (s0, c0, w0) /\
    node i ctx nonce 1 words key1 prefix (S level) = Ok (s1, c1, w1) /\
    forall payloads, payloads_wf i payloads ->
      joint_value ctx nonce (public_of i words payloads) key0 key1 level prefix (node_value w0 w1 c0 c1 (nth level payloads (Inner []))).
Proof.
  intros i lim HO ctx nonce words key0 key1 level prefix Hc HW K0 K1 HL Hp.
  pose proof (node_post i lim HO ctx nonce Hc 0 words key0 prefix (S level) HW K0 HL) as P0.
  pose proof (node_post i lim HO ctx nonce Hc 1 words key1 prefix (S level) HW K1 HL) as P1.
  destruct (node i ctx nonce 0 words key0 prefix (S level)) as [[[s0 c0] w0]|e] eqn:M0; [|left; apply P0].
  destruct (node i ctx nonce 1 words key1 prefix (S level)) as [[[s1 c1] w1]|e] eqn:M1; [|left; apply P1].
  right. exists s0, c0, w0, s1, c1, w1. split; [reflexivity|]. split; [reflexivity|]. intros payloads HP.
  exact (proj2 (proj2 (proj2 (node_shape i lim HO ctx nonce Hc words payloads key0 key1 level prefix _ _ _ _ _ _ HW HP K0 K1 HL Hp M0 M1)))).
Qed.
Print Assumptions C106_shape.

(** C106.  Where the control bits differ, exactly one payload gives a chosen value. *)
Theorem C106_reach : forall (i : Idpf) (lim : Z), IdpfOk i lim -> forall ctx nonce words payloads key0 key1 level prefix v,
  ctx_ok ctx -> words_wf i words -> payloads_wf i payloads -> length key0 = id_KEY_SIZE i -> length key1 = id_KEY_SIZE i ->
  level < id_BITS i -> length prefix = S level -> differ i ctx nonce words key0 key1 prefix (S level) ->
  of_level i level (id_VALUE_LEN i) v ->
  exists p, of_level i level (id_VALUE_LEN i) p /\ forall q, of_level i level (id_VALUE_LEN i) q ->
    (joint_value ctx nonce (public_of i words (upd payloads level q)) key0 key1 level prefix v <-> q = p).
Proof.
  intros i lim HO ctx nonce words payloads key0 key1 level prefix v Hc HW HP K0 K1 HL Hp (s0 & c0 & w0 & s1 & c1 & w1 & N0 & N1 & Hd) Hv.
  exact (node_reach i lim HO ctx nonce Hc words payloads key0 key1 level prefix _ _ _ _ _ _ v HW HP K0 K1 HL Hp N0 N1 Hd Hv).
Qed.
Print Assumptions C106_reach.

(** C106.  But no second one can be chosen: the value there determines the values
    at all prefixes of the level. *)
Theorem C106_line : forall (i : Idpf) (lim : Z), IdpfOk i lim -> forall ctx nonce words payloads payloads' key0 key1 level x v y u u',
  ctx_ok ctx -> words_wf i words -> payloads_wf i payloads -> payloads_wf i payloads' ->
  length key0 = id_KEY_SIZE i -> length key1 = id_KEY_SIZE i ->
  level < id_BITS i -> length x = S level -> length y = S level -> differ i ctx nonce words key0 key1 x (S level) ->
  joint_value ctx nonce (public_of i words payloads) key0 key1 level x v ->
  joint_value ctx nonce (public_of i words payloads') key0 key1 level x v ->
  joint_value ctx nonce (public_of i words payloads) key0 key1 level y u ->
  joint_value ctx nonce (public_of i words payloads') key0 key1 level y u' -> u = u' \/ idpf_ran_out i.
Proof.
  intros i lim HO ctx nonce words payloads payloads' key0 key1 level x v y u u' Hc HW HP HP' K0 K1 HL Hx Hy (s0 & c0 & w0 & s1 & c1 & w1 & N0 & N1 & Hd).
  exact (node_line i lim HO ctx nonce Hc words payloads payloads' key0 key1 level x _ _ _ _ _ _ v y u u' HW HP HP' K0 K1 HL Hx Hy N0 N1 Hd).
Qed.
Print Assumptions C106_line.

(** C106.  Below a node where seeds and control bits agree all values are zero. *)
Theorem C106_zero : forall (i : Idpf) (lim : Z), IdpfOk i lim -> forall ctx nonce words payloads key0 key1 level prefix n s c w0 w1,
  ctx_ok ctx -> words_wf i words -> payloads_wf i payloads -> length key0 = id_KEY_SIZE i -> length key1 = id_KEY_SIZE i ->
  level < id_BITS i -> length prefix = S level -> n <= level ->
  node i ctx nonce 0 words key0 prefix n = Ok (s, c, w0) -> node i ctx nonce 1 words key1 prefix n = Ok (s, c, w1) ->
  joint_value ctx nonce (public_of i words payloads) key0 key1 level prefix (zero_at i level (id_VALUE_LEN i)) \/ idpf_ran_out i.
Proof.
  intros i lim HO ctx nonce words payloads key0 key1 level prefix n s c w0 w1 Hc.
  exact (node_dead i lim HO ctx nonce Hc words payloads key0 key1 level prefix n s c w0 w1).
Qed.
Print Assumptions C106_zero.

(** C106.  For all keys, seeds and prefixes there are control bits for which the
    Aggregators' control bits differ at both extensions of the prefix. *)
Theorem C106_branch : forall (i : Idpf) (lim : Z), IdpfOk i lim -> forall ctx nonce seeds key0 key1 prefix,
  ctx_ok ctx -> length seeds = id_BITS i -> Forall (fun s => length s = id_KEY_SIZE i) seeds ->
  length key0 = id_KEY_SIZE i -> length key1 = id_KEY_SIZE i -> length prefix < id_BITS i ->
  idpf_ran_out i \/ exists words, words_wf i words /\ map fst words = seeds /\
    forall bit, differ i ctx nonce words key0 key1 (prefix ++ [bit]) (S (length prefix)).
Proof.
  intros i lim HO ctx nonce seeds key0 key1 prefix Hc.
  exact (node_branch i lim HO ctx nonce Hc seeds key0 key1 prefix).
Qed.
Print Assumptions C106_branch.

(** C106.  Let a report be honest but for the public share, and let [v] be what the
    honest public share evaluates to at the measurement's prefix.  If the public
    share sent evaluates to [v] at [x] and [y] and to zero at the other candidate
    prefixes, then the report is accepted whatever the verification key is, unless
    both [x] and [y] are candidates; it counts for the one that is. *)
Theorem C106_double : forall (p : Poplar1) (lim : Z), Poplar1Ok p lim ->
  forall ctx m nonce rand honest iss ps k0 k1 key level prefixes x y v,
  ctx_ok ctx -> length m = id_BITS (p1_idpf p) -> length nonce = p1_NONCE_SIZE -> length rand = p1_RAND_SIZE p ->
  p1_shard p ctx m nonce rand = Ok (honest, iss) -> map (fun '(k, _, _, _) => k) iss = [k0; k1] -> idpf_public_wf (p1_idpf p) ps ->
  level < id_BITS (p1_idpf p) -> (Z.of_nat level < 65536)%Z -> NoDup prefixes -> length x = S level -> length y = S level ->
  length key = SEED_SIZE (p1_xof p) ->
  joint_value ctx nonce honest k0 k1 level (firstn (S level) m) v ->
  joint_value ctx nonce ps k0 k1 level x v -> joint_value ctx nonce ps k0 k1 level y v ->
  (forall z, In z prefixes -> z <> x -> z <> y -> joint_value ctx nonce ps k0 k1 level z (zero_at (p1_idpf p) level 2)) ->
  ~ (In x prefixes /\ In y prefixes /\ x <> y) ->
  run_vdaf (sending (p1_vdaf p)) key (Z.of_nat level, prefixes) ctx [((ps, iss), nonce, [])]
    = Ok (map (fun z => if in_dec (list_eq_dec Bool.bool_dec) z [x; y] then 1%Z else 0%Z) prefixes) \/
  (run_vdaf (sending (p1_vdaf p)) key (Z.of_nat level, prefixes) ctx [((ps, iss), nonce, [])] = Raise OutOfFuel /\ p1_ran_out p (length prefixes)).
Proof.
  intros p lim HO ctx m nonce rand honest iss ps k0 k1 key level prefixes x y v Hc Hm Hn Hr ES EK W Hl Hl16 Hnd Hx Hy Hk Hv Vx Vy Hz Hxy.
  assert (G : exists w, (w = x \/ w = y) /\ forall z, In z prefixes -> (z = w <-> (z = x \/ z = y))).
  { destruct (in_dec (list_eq_dec Bool.bool_dec) x prefixes) as [Ix|Ix].
    - exists x. split; [now left|]. intros z Iz. split; [intros ->; now left|]. intros [->| ->]; [easy|].
      destruct (list_eq_dec Bool.bool_dec x y) as [->|N]; [easy|]. elim Hxy. easy.
    - exists y. split; [now right|]. intros z Iz. split; [intros ->; now right|]. intros [->| ->]; easy. }
  destruct G as (w & Hw & G).
  assert (Lw : length w = S level) by (destruct Hw as [->| ->]; assumption).
  destruct (moved_vote p lim HO ctx m nonce rand honest iss ps k0 k1 key level prefixes w v Hc Hm Hn Hr ES EK W Hl Hl16 Hnd Lw Hk Hv) as [D|D].
  - intros z Iz. destruct (list_eq_dec Bool.bool_dec z w) as [->|N]; [destruct Hw as [->| ->]; assumption|].
    specialize (G z Iz). apply Hz; [easy| |]; intros ->; apply N, G; tauto.
  - left. refine (eq_trans D _). f_equal. apply map_ext_in. intros z Iz. specialize (G z Iz).
    destruct (list_eq_dec Bool.bool_dec z w) as [E|E], (in_dec (list_eq_dec Bool.bool_dec) z [x; y]) as [I|I]; try reflexivity; cbn [In] in I.
    + elim I. destruct (proj1 G E) as [->| ->]; tauto.
    + elim E. apply G. destruct I as [->|[->|[]]]; tauto.
  - right. exact D.
Qed.
Print Assumptions C106_double.

(** With a block cipher that is the identity (so that XofFixedKeyAes128 puts out
    zeros) a report votes for both prefixes of level 0: it is accepted for each
    of them, and rejected only if both are candidates. *)
Definition weak_p1 : Poplar1 := p1_obj toy_ts (fun _ b => b) 30 2.
Definition weak_public (honest : Poplar1PublicShare weak_p1) : res (Poplar1PublicShare weak_p1) :=
  let* dst := p1_dst USAGE_SHARD_RAND [x09] in
  let* st := xof_init (p1_xof weak_p1) (repeat x02 32) dst C96_nonce in
  let* (ki, st) := next_vec (p1_xof weak_p1) (id_field_inner (p1_idpf weak_p1)) st 1 in
  match honest with
  | (seed, _, _) :: rest => Ok ((seed, (true, true), Inner (map fneg (f1 :: ki))) :: rest)
  | [] => Raise IndexError
  end.
Definition C106_outcome : list (res (list Z)) := Eval vm_compute in
  match (let* (honest, iss) := p1_shard weak_p1 [x09] [true; false] C96_nonce C96_rand in
         let* ps := weak_public honest in Ok (ps, iss)) with
  | Ok (ps, iss) => map (fun prefixes => run_vdaf (sending (p1_vdaf weak_p1)) (repeat x07 32) (0%Z, prefixes) [x09] [((ps, iss), C96_nonce, [])])
                        [[[false]]; [[true]]; [[false]; [true]]]
  | Raise e => [Raise e]
  end.
Example C106_example : C106_outcome = [Ok [1%Z]; Ok [1%Z]; Raise (ValueError "sketch verification failed")].
Proof. reflexivity. Qed.
(** The hypotheses are met, for every prefix of the keys and the public share of
    the example. *)
Example C106_hypotheses : exists lim, IdpfOk (p1_idpf weak_p1) lim /\ ctx_ok [x09] /\
  words_wf (p1_idpf weak_p1) (repeat (repeat x05 16, (true, true)) 2) /\
  payloads_wf (p1_idpf weak_p1) [Inner [f0; f1]; Leaf [f1; f0]] /\
  differ (p1_idpf weak_p1) [x09] C96_nonce (repeat (repeat x05 16, (true, true)) 2) (repeat x02 16) (repeat x03 16) [false] 1 /\
  differ (p1_idpf weak_p1) [x09] C96_nonce (repeat (repeat x05 16, (true, true)) 2) (repeat x02 16) (repeat x03 16) [true] 1.
Proof.
  destruct (p1_obj_ok toy_ts (fun _ b => b) 30 2 (fun _ b Hb => Hb) eq_refl ltac:(lia)) as [lim0 H0].
  destruct (pk_idpf _ _ H0) as [lim H].
  exists lim. split; [exact H|]. split; [reflexivity|]. split; [split; [reflexivity|repeat constructor]|]. split.
  { split; [reflexivity|]. intros [|[|[|l]]] w E; cbn in E; try discriminate; injection E as <-; cbn; lia. }
  assert (G : forall b, match node (p1_idpf weak_p1) [x09] C96_nonce 0 (repeat (repeat x05 16, (true, true)) 2) (repeat x02 16) [b] 1,
                  node (p1_idpf weak_p1) [x09] C96_nonce 1 (repeat (repeat x05 16, (true, true)) 2) (repeat x03 16) [b] 1 with
            | Ok (_, c0, _), Ok (_, c1, _) => Bool.eqb c0 c1 = false | _, _ => False end) by (intros []; vm_compute; reflexivity).
  assert (D : forall b, differ (p1_idpf weak_p1) [x09] C96_nonce (repeat (repeat x05 16, (true, true)) 2) (repeat x02 16) (repeat x03 16) [b] 1).
  { intros b. specialize (G b). unfold differ.
    destruct (node (p1_idpf weak_p1) [x09] C96_nonce 0 _ _ _ _) as [[[s0 c0] w0]|]; [|easy].
    destruct (node (p1_idpf weak_p1) [x09] C96_nonce 1 _ _ _ _) as [[[s1 c1] w1]|]; [|easy].
    exists s0, c0, w0, s1, c1, w1. repeat split. intros ->. now rewrite Bool.eqb_reflx in G. }
  split; apply D.
Qed.

(** So are those of C106_double, by the report of the example. *)
Lemma weak_inj (u v : list (F (id_field_inner (p1_idpf weak_p1)))) : map fint u = map fint v -> u = v.
Proof. revert v. induction u as [|a u IH]; intros [|b v] E; try discriminate; [reflexivity|]. injection E as E1 E2. f_equal; [now apply F_eq | now apply IH]. Qed.
Definition weak_at (q : Poplar1PublicShare weak_p1) (k0 k1 : bytes) (b : bool) : option (list Z) :=
  match idpf_eval (p1_idpf weak_p1) 0 q k0 0 [[b]] [x09] C96_nonce, idpf_eval (p1_idpf weak_p1) 1 q k1 0 [[b]] [x09] C96_nonce with
  | Ok [y0], Ok [y1] => match fv_add y0 y1 with Ok (Inner v) => Some (map fint v) | _ => None end
  | _, _ => None
  end.
Lemma weak_joint q k0 k1 b l : weak_at q k0 k1 b = Some l -> exists v, map fint v = l /\ joint_value [x09] C96_nonce q k0 k1 0 [b] (Inner v).
Proof.
  unfold weak_at, joint_value. change (Z.of_nat 0) with 0%Z. intros E.
  destruct (idpf_eval (p1_idpf weak_p1) 0 q k0 0 [[b]] [x09] C96_nonce) as [[|y0 [|? ?]]|]; try discriminate.
  destruct (idpf_eval (p1_idpf weak_p1) 1 q k1 0 [[b]] [x09] C96_nonce) as [[|y1 [|? ?]]|]; try discriminate.
  destruct (fv_add y0 y1) as [[v|v]|] eqn:EA; try discriminate. injection E as <-. exists v. split; [reflexivity|]. exists y0, y1. easy.
Qed.
Definition weak_check (sharded : res (Poplar1PublicShare weak_p1 * list (Poplar1InputShare weak_p1)))
  (sent : Poplar1PublicShare weak_p1 -> res (Poplar1PublicShare weak_p1)) : bool :=
  match sharded with
  | Ok (honest, [(k0, _, _, _); (k1, _, _, _)]) =>
    match sent honest with
    | Ok ([(a, _, Inner u); (b, _, Leaf v)] as ps) =>
      (length a =? 16) && (length u =? 2) && (length b =? 16) && (length v =? 2) &&
      match weak_at honest k0 k1 true, weak_at ps k0 k1 false, weak_at ps k0 k1 true with
      | Some l, Some l0, Some l1 => (if list_eq_dec Z.eq_dec l0 l then true else false) && (if list_eq_dec Z.eq_dec l1 l then true else false)
      | _, _, _ => false
      end
    | _ => false
    end
  | _ => false
  end.
Lemma weak_checked : weak_check (p1_shard weak_p1 [x09] [true; false] C96_nonce C96_rand) weak_public = true.
Proof. vm_compute. reflexivity. Qed.
Lemma weak_unpack sharded sent : weak_check sharded sent = true -> exists honest iss ps k0 k1 v,
  sharded = Ok (honest, iss) /\ map (fun '(k, _, _, _) => k) iss = [k0; k1] /\ idpf_public_wf (p1_idpf weak_p1) ps /\
  joint_value [x09] C96_nonce honest k0 k1 0 [true] v /\
  joint_value [x09] C96_nonce ps k0 k1 0 [false] v /\ joint_value [x09] C96_nonce ps k0 k1 0 [true] v.
Proof.
  unfold weak_check. intros M.
  destruct sharded as [[honest [|[[[k0 sa] ia] la] [|[[[k1 sb] ib] lb] [|? ?]]]]|]; try discriminate M.
  destruct (sent honest) as [[|[[a cta] [u|u]] [|[[bb ctb] [v|v]] [|? ?]]]|]; try discriminate M.
  apply andb_prop in M. destruct M as [M M5]. apply andb_prop in M. destruct M as [M M4]. apply andb_prop in M. destruct M as [M M3].
  apply andb_prop in M. destruct M as [M1 M2]. apply Nat.eqb_eq in M1, M2, M3, M4.
  destruct (weak_at honest k0 k1 true) as [l|] eqn:W0; [|discriminate M5].
  match type of M5 with match ?w with _ => _ end = _ => destruct w as [l0|] eqn:W1; [|discriminate M5] end.
  match type of M5 with match ?w with _ => _ end = _ => destruct w as [l1|] eqn:W2; [|discriminate M5] end.
  destruct (list_eq_dec Z.eq_dec l0 l) as [->|]; [|discriminate M5]. destruct (list_eq_dec Z.eq_dec l1 l) as [->|]; [|discriminate M5].
  apply weak_joint in W0, W1, W2. destruct W0 as (v0 & <- & W0), W1 as (v1 & E1 & W1), W2 as (v2 & E2 & W2).
  apply weak_inj in E1, E2. subst v1 v2.
  eexists honest, _, _, k0, k1, (Inner v0). split; [reflexivity|]. split; [reflexivity|].
  split; [|split; [exact W0|split; [exact W1|exact W2]]].
  split; [reflexivity|]. intros [|[|[|n]]] cw E; cbn in E; try discriminate; injection E as <-; (split; [assumption|]); cbn; split; try assumption; lia.
Qed.
Example C106_double_hypotheses : (exists lim, Poplar1Ok weak_p1 lim) /\ exists honest iss ps k0 k1 v,
  p1_shard weak_p1 [x09] [true; false] C96_nonce C96_rand = Ok (honest, iss) /\ map (fun '(k, _, _, _) => k) iss = [k0; k1] /\
  idpf_public_wf (p1_idpf weak_p1) ps /\
  joint_value [x09] C96_nonce honest k0 k1 0 [true] v /\
  joint_value [x09] C96_nonce ps k0 k1 0 [false] v /\ joint_value [x09] C96_nonce ps k0 k1 0 [true] v.
Proof. split; [exact (p1_obj_ok toy_ts (fun _ b => b) 30 2 (fun _ b Hb => Hb) eq_refl ltac:(lia)) | exact (weak_unpack _ _ weak_checked)]. Qed.
