(** Prio3 sharding. *)
From Verif Require Export Prio3Spec PostFacts SampleFacts XofFacts FlpProofs.
Open Scope nat_scope.

Lemma nth_seq_map {A} (f : nat -> A) n i d : i < n -> nth i (map f (seq 0 n)) d = f i.
Proof. intros H. rewrite (nth_map' f _ i 0) by now rewrite seq_length. now rewrite seq_nth. Qed.

Lemma chunks_concat {A} l (rand : list A) n : length rand = n * l ->
  concat (map (fun i => slice rand (i * l) (i * l + l)) (seq 0 n)) = rand.
Proof.
  revert rand. induction n as [|n IH]; intros rand H.
  - simpl in *. now destruct rand.
  - cbn [seq map concat]. rewrite <- seq_shift, map_map.
    transitivity (firstn l rand ++ skipn l rand); [|apply firstn_skipn]. f_equal.
    + unfold slice. f_equal. lia.
    + rewrite <- (IH (skipn l rand)) by (rewrite skipn_length; nia).
      f_equal. apply map_ext. intros i. unfold slice. rewrite skipn_skipn'.
      f_equal; [lia|]. f_equal. lia.
Qed.

Lemma piece_length {A} len k n (v : list A) : length v = len * n -> k < n -> length (piece len k v) = len.
Proof. intros H Hk. unfold piece. rewrite slice_length; nia. Qed.

Lemma piece_nil {A} k (v : list A) : piece 0 k v = [].
Proof. unfold piece, slice. now rewrite Nat.mul_0_r. Qed.

Lemma piece_concat_self {A} len n (v : list A) : length v = len * n ->
  concat (map (fun k => piece len k v) (seq 0 n)) = v.
Proof. intros H. apply chunks_concat. lia. Qed.

Lemma piece_concat {A} len k (l : list (list A)) : Forall (fun x => length x = len) l -> k < length l ->
  piece len k (concat l) = nth k l [].
Proof.
  revert k. induction l as [|x l IH]; intros k HF Hk; [simpl in Hk; lia|].
  inversion HF; subst. cbn [concat]. unfold piece, slice.
  replace (k * length x + length x - k * length x) with (length x) by lia.
  destruct k as [|k].
  - simpl. now rewrite firstn_app_exact.
  - simpl nth. rewrite <- IH by (simpl in *; try easy; lia). unfold piece, slice.
    replace (S k * length x) with (k * length x + length x) by lia.
    replace (k * length x + length x - k * length x) with (length x) by lia.
    rewrite <- skipn_skipn'. now rewrite skipn_app_exact.
Qed.

Lemma range_step_0 n k : 0 < k -> range_step 0 (n * k) k = Ok (map (fun i => i * k) (seq 0 n)).
Proof.
  intros H. unfold range_step. rewrite (proj2 (Nat.eqb_neq k 0)) by lia. f_equal.
  replace ((n * k - 0 + (k - 1)) / k) with n; [easy|].
  apply Nat.div_unique with (k - 1); lia.
Qed.

Lemma range_step_1 n : range_step 1 (n * 2) 2 = Ok (map (fun i => 1 + i * 2) (seq 0 n)).
Proof.
  unfold range_step. cbn [Nat.eqb]. f_equal.
  destruct n; [easy|].
  replace ((S n * 2 - 1 + (2 - 1)) / 2) with (S n); [easy|].
  apply Nat.div_unique with 0; lia.
Qed.

Lemma opt_bytes_eqb_eq a b : opt_bytes_eqb a b = true <-> a = b.
Proof.
  destruct a, b; simpl; split; intros H; try easy.
  - f_equal. now apply bytes_eqb_eq.
  - injection H as ->. apply bytes_eqb_refl.
Qed.

Lemma encode_vec_ok {P} (v : list (F P)) : wf_field P ->
  exists b, encode_vec v = Ok b /\ length b = length v * ENCODED_SIZE P /\ decode_vec b = Ok v.
Proof. intros H. destruct (codec_vec H) as [H1 _]. destruct (H1 v) as (b & ? & ? & ? & _). eauto. Qed.

Section P3F.
Context (p : Prio3) (lim : Z) (HO : Prio3Ok p lim).
Notation field := (p3_field p).
Notation flp := (p3_flp p).
Notation xof := (p3_xof p).
Notation S_ := (p3_SHARES p).
Notation PR := (p3_PROOFS p).
Notation F := (F (p3_field p)).
Notation E0 := (fun e => e = OutOfFuel /\ ran_out p).
Add Ring FringP3 : (@F_ring (p3_field p)).

Lemma p3_dst_ok usage ctx : (0 <= usage < 2 ^ 16)%Z -> ctx_ok ctx ->
  exists d, p3_dst p usage ctx = Ok d /\ (Z.of_nat (length d) < 65536)%Z.
Proof.
  intros Hu Hc. unfold p3_dst, domain_separation_tag.
  destruct (format_dst_total 0 (p3_ID p) usage) as [d Hd]; try lia; [apply (po_ID _ _ HO)|].
  exists (d ++ ctx). rewrite Hd. simpl. split; [easy|].
  rewrite app_length, (format_dst_length _ _ _ _ Hd). unfold ctx_ok in Hc. lia.
Qed.

Lemma byte_of_ok n : n < 256 -> byte_of (Z.of_nat n) = Ok [z2b (Z.of_nat n)].
Proof.
  intros H. unfold byte_of.
  now rewrite (proj2 (Z.leb_le 0 (Z.of_nat n))), (proj2 (Z.ltb_lt (Z.of_nat n) 256)) by lia.
Qed.

Lemma expand_post seed dst binder len : length seed = SEED_SIZE xof ->
  (Z.of_nat (length dst) < 65536)%Z -> In len (expansion_lens p) ->
  post (expand_into_vec xof field seed dst binder len) (fun v => length v = len) E0.
Proof.
  intros Hs Hd Hl.
  destruct (expand_cases xof field lim seed dst binder len (po_xof _ _ HO) (po_lim _ _ HO) Hs Hd)
    as [(v & -> & Hv)|E]; [easy|].
  rewrite E. simpl. split; [easy|]. now exists seed, dst, binder, len.
Qed.

Ltac dst_step := 
  match goal with |- context [p3_dst p ?u ?c] =>
    let d := fresh "d" in let Hd := fresh "Hd" in let Hl := fresh "Hl" in
    destruct (p3_dst_ok u c) as (d & Hd & Hl); [vm_compute; split; congruence | assumption |];
    rewrite Hd; cbn [bind]
  end.

Lemma helper_meas_post ctx j share : ctx_ok ctx -> j < 256 -> length share = SEED_SIZE xof ->
  post (helper_meas_share p ctx j share) (fun v => length v = MEAS_LEN flp) E0.
Proof.
  intros Hc Hj Hs. unfold helper_meas_share. dst_step. rewrite byte_of_ok by easy. cbn [bind].
  apply expand_post; [easy|easy|]. now left.
Qed.

Lemma helper_proofs_post ctx j share : ctx_ok ctx -> j < 256 -> length share = SEED_SIZE xof ->
  post (helper_proofs_share p ctx j share) (fun v => length v = PROOF_LEN flp * PR) E0.
Proof.
  intros Hc Hj Hs. unfold helper_proofs_share. dst_step.
  rewrite !byte_of_ok by (try easy; apply (po_proofs _ _ HO)). cbn [bind].
  apply expand_post; [easy|easy|]. simpl; tauto.
Qed.

Lemma prove_rands_post ctx seed : ctx_ok ctx -> length seed = SEED_SIZE xof ->
  post (prove_rands p ctx seed) (fun v => length v = PROVE_RAND_LEN flp * PR) E0.
Proof.
  intros Hc Hs. unfold prove_rands. dst_step.
  rewrite !byte_of_ok by (try easy; apply (po_proofs _ _ HO)). cbn [bind].
  apply expand_post; [easy|easy|]. simpl; tauto.
Qed.

Lemma query_rands_post key ctx nonce : ctx_ok ctx -> length key = SEED_SIZE xof ->
  post (query_rands p key ctx nonce) (fun v => length v = QUERY_RAND_LEN flp * PR) E0.
Proof.
  intros Hc Hs. unfold query_rands. dst_step.
  rewrite !byte_of_ok by (try easy; apply (po_proofs _ _ HO)). cbn [bind].
  apply expand_post; [easy|easy|]. simpl; tauto.
Qed.

Lemma joint_rands_post ctx seed : ctx_ok ctx -> length seed = SEED_SIZE xof ->
  post (joint_rands p ctx seed) (fun v => length v = JOINT_RAND_LEN flp * PR) E0.
Proof.
  intros Hc Hs. unfold joint_rands. dst_step.
  rewrite !byte_of_ok by (try easy; apply (po_proofs _ _ HO)). cbn [bind].
  apply expand_post; [easy|easy|]. simpl; tauto.
Qed.

Lemma joint_rand_part_ok ctx j blind meas_share nonce : ctx_ok ctx -> j < 256 ->
  length blind = SEED_SIZE xof ->
  exists part, joint_rand_part p ctx j blind meas_share nonce = Ok part /\ length part = SEED_SIZE xof.
Proof.
  intros Hc Hj Hs. unfold joint_rand_part. dst_step. rewrite byte_of_ok by easy. cbn [bind].
  destruct (encode_vec_ok meas_share (po_field _ _ HO)) as (e & -> & _ & _). cbn [bind].
  apply derive_seed_ok with lim; try easy; [apply (po_xof _ _ HO) | apply (po_seed_lim _ _ HO)].
Qed.

Lemma joint_rand_seed_ok ctx parts : ctx_ok ctx ->
  exists seed, joint_rand_seed p ctx parts = Ok seed /\ length seed = SEED_SIZE xof.
Proof.
  intros Hc. unfold joint_rand_seed. dst_step.
  apply derive_seed_ok with lim; try easy; [apply (po_xof _ _ HO) | apply (po_seed_lim _ _ HO)|].
  apply zeros_length.
Qed.

(** Adding the vectors subtracted from [v] gives [v] back. *)
Lemma sub_add n (v : list F) hs : length v = n -> Forall (fun h => length h = n) hs ->
  vsum n (zip_with fsub v (vsum n hs) :: hs) = v.
Proof.
  intros Hv Hh. subst n.
  assert (L : length (zip_with fsub v (vsum (length v) hs)) = length v)
    by (apply zip_length_eq; [easy | apply vsum_length]).
  rewrite vsum_cons by easy.
  apply (vec_eq (length v)); [apply zip_length_eq; [easy | apply vsum_length] | easy |].
  intros i Hi.
  rewrite (nth_zip_with _ _ _ _ f0 f0) by (rewrite ?L, ?vsum_length; lia).
  rewrite (nth_zip_with _ _ _ _ f0 f0) by (rewrite ?L, ?vsum_length; lia). ring.
Qed.

(** Accumulating helper vectors. *)
Definition taken (len : nat) (f : nat -> res (list F)) (i : nat) (hs : list (list F)) : Prop :=
  vecs i len hs /\ forall j, j < i -> f j = Ok (nth j hs []).

Lemma taken_0 len f : taken len f 0 [].
Proof. split; [split; [easy | constructor] | intros j Hj; lia]. Qed.

Lemma taken_S len f i hs h : taken len f i hs -> f i = Ok h -> length h = len ->
  taken len f (S i) (hs ++ [h]).
Proof.
  intros [[Hl HF] Hf] Hi Hh. split; [split|].
  - rewrite app_length. simpl. lia.
  - apply Forall_app. split; [easy | now constructor].
  - intros j Hj. destruct (Nat.eq_dec j i) as [->|Hne].
    + rewrite app_nth2 by lia. now rewrite Hl, Nat.sub_diag.
    + rewrite app_nth1 by lia. apply Hf. lia.
Qed.

Lemma sub_step len (v : list F) hs h : length v = len -> Forall (fun x => length x = len) hs -> length h = len ->
  vec_sub (zip_with fsub v (vsum len hs)) h = Ok (zip_with fsub v (vsum len (hs ++ [h]))).
Proof.
  intros Hv HF Hh.
  pose proof (fold_vec_sub len (hs ++ [h]) v Hv) as H1.
  pose proof (fold_vec_sub len hs v Hv HF) as H2.
  rewrite foldM_app, H2 in H1. cbn [bind foldM] in H1.
  rewrite bind_ret in H1. apply H1. apply Forall_app. split; [easy | now constructor].
Qed.

(** The two loops subtracting helper shares. *)
Lemma sub_loop_post len n (v : list F) (f : nat -> res (list F)) (body : list F -> nat -> res (list F)) :
  length v = len -> (forall acc j, j < n -> body acc j = let* h := f j in vec_sub acc h) ->
  (forall j, j < n -> post (f j) (fun h => length h = len) E0) ->
  post (for_range 0 n v body)
    (fun r => exists hs, taken len f n hs /\ r = zip_with fsub v (vsum len hs)) E0.
Proof.
  intros Hv Hb Hf.
  apply (post_for_range (fun i r => exists hs, taken len f i hs /\ r = zip_with fsub v (vsum len hs))); [lia| |].
  - exists []. split; [apply taken_0|]. rewrite vsum_nil. symmetry. apply zip_fsub_0. lia.
  - intros i r Hi (hs & Ht & ->). rewrite Hb by lia.
    eapply post_bind; [apply Hf; lia|]. cbv beta. intros h Eh Hh.
    rewrite sub_step by (try easy; apply Ht). simpl. exists (hs ++ [h]). split; [|easy].
    now apply taken_S.
Qed.

(** The loop generating the proofs. *)
Lemma peel_piece {A} len i n (v : list A) : length v = len * n -> i < n ->
  front len (skipn (i * len) v) = Ok (piece len i v, skipn (S i * len) v).
Proof.
  intros Hv Hi. rewrite front_ok by (rewrite skipn_length; nia).
  unfold piece, slice. rewrite skipn_skipn'.
  replace (i * len + len - i * len) with len by lia.
  now replace (len + i * len) with (S i * len) by lia.
Qed.

Lemma length_concat_snoc {A} (l : list (list A)) x : concat (l ++ [x]) = concat l ++ x.
Proof. now rewrite concat_app, <- (app_nil_r x) at 1; simpl; rewrite !app_nil_r. Qed.

(** Names for the seeds. *)
Lemma seeds_step (rand : bytes) n : length rand = n * SEED_SIZE xof ->
  exists seeds, map (fun i => slice rand i (i + SEED_SIZE xof)) (map (fun i => i * SEED_SIZE xof) (seq 0 n)) = seeds /\
    length seeds = n /\ Forall (fun s => length s = SEED_SIZE xof) seeds /\ concat seeds = rand.
Proof.
  intros H. eexists. split; [reflexivity|]. rewrite map_map. split; [|split].
  - now rewrite map_length, seq_length.
  - apply Forall_forall. intros s Hs. apply in_map_iff in Hs. destruct Hs as (i & <- & Hi).
    apply in_seq in Hi. rewrite slice_length; nia.
  - now apply chunks_concat.
Qed.

Lemma Forall_nth_len {A} (P : A -> Prop) l i d : Forall P l -> i < length l -> P (nth i l d).
Proof. intros HF Hi. rewrite Forall_forall in HF. apply HF. now apply nth_In. Qed.

Context (good : list F -> Prop) (valid : list F -> list F -> Prop) (HF : FlpOk flp good valid).

(** Building the input shares. *)
Lemma inputs_loop (first : Prio3InputShare field) n (f : nat -> Prio3InputShare field)
  (body : list (Prio3InputShare field) -> nat -> res (list (Prio3InputShare field))) :
  (forall acc j, j < n -> body acc j = Ok (acc ++ [f j])) ->
  for_range 0 n [first] body = Ok (first :: map f (seq 0 n)).
Proof.
  intros Hb. destruct (for_range_inv (fun i r => r = first :: map f (seq 0 i)) 0 n [first] body) as (r & Hr & ->).
  - lia.
  - easy.
  - intros i r Hi ->. rewrite Hb by lia. eexists. split; [reflexivity|].
    rewrite seq_S, map_app. easy.
  - easy.
Qed.

Theorem shard_without_post ctx meas nonce rand (seeds : list bytes) :
  ctx_ok ctx -> JOINT_RAND_LEN flp = 0 -> length meas = MEAS_LEN flp ->
  length seeds = S_ -> Forall (fun s => length s = SEED_SIZE xof) seeds -> concat seeds = rand ->
  post (shard_without_joint_rand p ctx meas seeds)
    (fun '(ps, iss) => exists ms prs blinds prove_seed pr jr proofs,
       Report p ctx meas nonce rand ps iss ms prs blinds prove_seed pr jr proofs) E0.
Proof.
  intros Hc HJ Hm Hls Hsl Hcat.
  pose proof (po_shares _ _ HO) as Hsh.
  unfold shard_without_joint_rand.
  rewrite front_ok by lia. cbn [bind].
  rewrite front_ok by (rewrite skipn_length; lia). cbn [bind].
  set (hshares := firstn (S_ - 1) seeds).
  assert (Hhl : length hshares = S_ - 1) by (unfold hshares; rewrite firstn_length; lia).
  assert (Hhs : forall j, j < S_ - 1 -> length (nth j hshares []) = SEED_SIZE xof).
  { intros j Hj. unfold hshares. rewrite nth_firstn'. rewrite (proj2 (Nat.ltb_lt _ _)) by lia.
    apply (Forall_nth_len (fun s : bytes => length s = SEED_SIZE xof) seeds); [easy | lia]. }
  assert (Hps : exists ps, firstn 1 (skipn (S_ - 1) seeds) = [ps] /\ length ps = SEED_SIZE xof /\
            rand = concat hshares ++ ps).
  { assert (L : length (skipn (S_ - 1) seeds) = 1) by (rewrite skipn_length; lia).
    destruct (skipn (S_ - 1) seeds) as [|ps [|? ?]] eqn:E; try (simpl in L; lia).
    exists ps. split; [easy|].
    pose proof (firstn_skipn (S_ - 1) seeds) as Es. rewrite E in Es. fold hshares in Es.
    rewrite <- Es in Hsl. apply Forall_app in Hsl. destruct Hsl as [_ Hsl]. apply Forall_inv in Hsl.
    split; [easy|]. rewrite <- Hcat, <- Es, concat_app. simpl. now rewrite app_nil_r. }
  destruct Hps as (ps & -> & Hpl & Hr). change (get [ps] 0) with (Ok ps). cbn [bind].
  eapply post_bind.
  { apply (sub_loop_post (MEAS_LEN flp) (S_ - 1) meas
       (fun j => let* share := get hshares j in helper_meas_share p ctx (j + 1) share)); [easy| |].
    - intros. now rewrite bind_assoc.
    - intros j Hj. cbv beta.
      rewrite (get_nth _ _ ([] : bytes)) by lia. cbn [bind]. apply helper_meas_post; [easy|lia|].
      now apply Hhs. }
  cbv beta. intros lms _ (hms & Hhms & ->).
  eapply post_bind; [apply prove_rands_post; [exact Hc | exact Hpl]|].
  cbv beta. intros pr Epr Lpr.
  eapply post_bind.
  { apply (post_for_range (fun i (r : list F * list F) => exists proofs, r = (concat proofs, skipn (i * PROVE_RAND_LEN flp) pr) /\
      vecs i (PROOF_LEN flp) proofs /\
      forall k, k < i -> flp_prove flp meas (piece (PROVE_RAND_LEN flp) k pr) [] = Ok (nth k proofs []))); [lia| |].
    - exists []. split; [easy|]. split; [split; [easy | constructor] | intros; lia].
    - intros i r Hi (proofs & -> & Hv & Hk).
      rewrite (peel_piece _ _ PR) by (try easy; lia). cbn [bind].
      destruct (fo_prove _ _ _ HF meas (piece (PROVE_RAND_LEN flp) i pr) []) as (pf & Epf & Lpf); try easy.
      { apply piece_length with PR; [easy | lia]. }
      rewrite Epf. cbn [bind post]. exists (proofs ++ [pf]). split; [|split].
      + now rewrite length_concat_snoc.
      + destruct Hv as [Hv1 Hv2]. split; [rewrite app_length; simpl; lia|].
        apply Forall_app. split; [easy | now constructor].
      + intros k Hk'. destruct Hv as [Hv1 Hv2]. destruct (Nat.eq_dec k i) as [->|Hne].
        * rewrite app_nth2 by lia. now rewrite Hv1, Nat.sub_diag.
        * rewrite app_nth1 by lia. apply Hk. lia. }
  cbv beta. intros r _ (proofs & -> & Hpv & Hpk).
  eapply post_bind.
  { apply (sub_loop_post (PROOF_LEN flp * PR) (S_ - 1) (concat proofs)
       (fun j => let* share := get hshares j in helper_proofs_share p ctx (j + 1) share)).
    - destruct Hpv as [Hv1 Hv2]. rewrite (length_concat_const _ _ Hv2). lia.
    - intros. now rewrite bind_assoc.
    - intros j Hj. cbv beta.
      rewrite (get_nth _ _ ([] : bytes)) by lia. cbn [bind]. apply helper_proofs_post; [easy|lia|].
      now apply Hhs. }
  cbv beta. intros lps _ (hps & Hhps & ->).
  rewrite (inputs_loop _ _ (fun j => Helper (nth j hshares []) None)).
  2:{ intros acc j Hj. now rewrite (get_nth _ _ ([] : bytes)) by lia. }
  cbn [bind post].
  set (lms := zip_with fsub meas _). set (lps := zip_with fsub (concat proofs) _).
  exists (lms :: hms), (lps :: hps), (repeat None S_), ps, pr, [], proofs.
  assert (Lcat : length (concat proofs) = PROOF_LEN flp * PR).
  { destruct Hpv as [Hv1 Hv2]. rewrite (length_concat_const _ _ Hv2). lia. }
  destruct Hhms as [[Hm1 Hm2] Hm3], Hhps as [[Hq1 Hq2] Hq3].
  constructor.
  - simpl. rewrite map_length, seq_length. lia.
  - intros j d Hj. unfold blind_wf. destruct j as [|j].
    + cbn [nth input_share_wf]. split; [easy|]. split; [apply zip_length_eq; [easy | apply vsum_length]|].
      split; [apply zip_length_eq; [easy | apply vsum_length]|]. unfold blind_wf. now rewrite HJ.
    + cbn [nth]. rewrite nth_seq_map by lia. cbn [input_share_wf]. split; [easy|]. split; [apply Hhs; lia|].
      unfold blind_wf. now rewrite HJ.
  - unfold public_share_wf. now rewrite HJ.
  - split; [simpl; lia|]. constructor; [|easy]. apply zip_length_eq; [easy | apply vsum_length].
  - split; [simpl; lia|]. constructor; [|easy]. apply zip_length_eq; [easy | apply vsum_length].
  - intros j Hj d. rewrite nth_repeat'. replace (if j <? S_ then None else None) with (@None bytes) by now destruct (j <? S_).
    destruct j as [|j]; [easy|]. cbn [nth].
    rewrite nth_seq_map by lia. unfold expand_input_share. cbn [Nat.ltb Nat.leb].
    specialize (Hm3 j ltac:(lia)). specialize (Hq3 j ltac:(lia)).
    rewrite (get_nth _ _ ([] : bytes)) in Hm3, Hq3 by lia. cbn [bind] in Hm3, Hq3.
    rewrite Nat.add_1_r in Hm3, Hq3. now rewrite Hm3, Hq3.
  - now apply sub_add.
  - now apply sub_add.
  - apply Hpv.
  - easy.
  - intros k Hk. rewrite HJ, piece_nil. now apply Hpk.
  - now rewrite HJ.
  - rewrite nth_repeat'. replace (if 0 <? S_ then None else None) with (@None bytes) by now destruct (0 <? S_).
    rewrite Hr. cbn [app]. f_equal. f_equal.
    apply (nth_ext' ([] : bytes)); [now rewrite map_length, seq_length|].
    intros i Hi. rewrite (nth_map' _ _ _ 0) by (rewrite seq_length; lia).
    rewrite seq_nth by lia. cbn [nth plus]. now rewrite nth_seq_map by lia.
Qed.

Lemma flat_pairs (l : list bytes) n : length l = n * 2 ->
  concat l = concat (map (fun j => nth (j * 2) l [] ++ nth (1 + j * 2) l []) (seq 0 n)).
Proof.
  revert l. induction n as [|n IH]; intros l H.
  - now destruct l.
  - destruct l as [|a [|b l]]; try (simpl in H; lia).
    cbn [seq map concat]. rewrite <- seq_shift, map_map. cbn [nth plus Nat.mul].
    rewrite <- app_assoc. do 2 f_equal. rewrite (IH l) by (simpl in H; lia). easy.
Qed.

Theorem shard_with_post ctx meas nonce rand (seeds : list bytes) :
  ctx_ok ctx -> 0 < JOINT_RAND_LEN flp -> length meas = MEAS_LEN flp ->
  length seeds = 2 * S_ -> Forall (fun s => length s = SEED_SIZE xof) seeds -> concat seeds = rand ->
  post (shard_with_joint_rand p ctx meas nonce seeds)
    (fun '(ps, iss) => exists ms prs blinds prove_seed pr jr proofs,
       Report p ctx meas nonce rand ps iss ms prs blinds prove_seed pr jr proofs) E0.
Proof.
  intros Hc HJ Hm Hls Hsl Hcat.
  pose proof (po_shares _ _ HO) as Hsh.
  unfold shard_with_joint_rand.
  rewrite front_ok by lia. cbn [bind].
  rewrite range_step_0, range_step_1 by lia. cbn [bind].
  set (hseeds := firstn ((S_ - 1) * 2) seeds).
  assert (Hhl : length hseeds = (S_ - 1) * 2) by (unfold hseeds; rewrite firstn_length; lia).
  assert (Hhs : forall j, j < (S_ - 1) * 2 -> length (nth j hseeds []) = SEED_SIZE xof).
  { intros j Hj. unfold hseeds. rewrite nth_firstn'. rewrite (proj2 (Nat.ltb_lt _ _)) by lia.
    apply (Forall_nth_len (fun s : bytes => length s = SEED_SIZE xof) seeds); [easy | lia]. }
  rewrite (mapM_map _ (fun i => nth i hseeds ([] : bytes)) (map (fun i => i * 2) (seq 0 (S_ - 1)))).
  2:{ intros x Hx. apply in_map_iff in Hx. destruct Hx as (i & <- & Hi). apply in_seq in Hi.
      apply get_nth. lia. }
  cbn [bind].
  rewrite (mapM_map _ (fun i => nth i hseeds ([] : bytes)) (map (fun i => 1 + i * 2) (seq 0 (S_ - 1)))).
  2:{ intros x Hx. apply in_map_iff in Hx. destruct Hx as (i & <- & Hi). apply in_seq in Hi.
      apply get_nth. lia. }
  cbn [bind]. rewrite !map_map.
  set (hshares := map (fun x => nth (x * 2) hseeds []) (seq 0 (S_ - 1))).
  set (hblinds := map (fun x => nth (1 + x * 2) hseeds []) (seq 0 (S_ - 1))).
  assert (L1 : length hshares = S_ - 1) by (unfold hshares; now rewrite map_length, seq_length).
  assert (L2 : length hblinds = S_ - 1) by (unfold hblinds; now rewrite map_length, seq_length).
  assert (Gs : forall j, j < S_ - 1 -> get hshares j = Ok (nth (j * 2) hseeds [])).
  { intros j Hj. rewrite (get_nth _ _ ([] : bytes)) by lia. unfold hshares. now rewrite nth_seq_map. }
  assert (Gb : forall j, j < S_ - 1 -> get hblinds j = Ok (nth (1 + j * 2) hseeds [])).
  { intros j Hj. rewrite (get_nth _ _ ([] : bytes)) by lia. unfold hblinds. now rewrite nth_seq_map. }
  rewrite front_ok by (rewrite skipn_length; lia). cbn [bind].
  assert (Hps : exists lb ps, firstn 2 (skipn ((S_ - 1) * 2) seeds) = [lb; ps] /\
            length lb = SEED_SIZE xof /\ length ps = SEED_SIZE xof /\
            rand = concat hseeds ++ lb ++ ps).
  { assert (L : length (skipn ((S_ - 1) * 2) seeds) = 2) by (rewrite skipn_length; lia).
    destruct (skipn ((S_ - 1) * 2) seeds) as [|lb [|ps [|? ?]]] eqn:E; try (simpl in L; lia).
    exists lb, ps. split; [easy|].
    pose proof (firstn_skipn ((S_ - 1) * 2) seeds) as Es. rewrite E in Es. fold hseeds in Es.
    rewrite <- Es in Hsl. apply Forall_app in Hsl. destruct Hsl as [_ Hsl].
    split; [now apply Forall_inv in Hsl|]. split; [now apply Forall_inv_tail, Forall_inv in Hsl|].
    rewrite <- Hcat, <- Es, concat_app. simpl. now rewrite app_nil_r. }
  destruct Hps as (lb & ps & -> & Hlb & Hpl & Hr).
  change (get [lb; ps] 0) with (Ok lb). change (get [lb; ps] 1) with (Ok ps). cbn [bind].
  eapply post_bind.
  { apply (post_for_range (fun i (r : list F * list bytes) => exists hms,
      taken (MEAS_LEN flp) (fun j => let* share := get hshares j in helper_meas_share p ctx (j + 1) share) i hms /\
      fst r = zip_with fsub meas (vsum (MEAS_LEN flp) hms) /\ length (snd r) = i /\
      forall j, j < i -> joint_rand_part p ctx (j + 1) (nth (1 + j * 2) hseeds []) (nth j hms []) nonce
                        = Ok (nth j (snd r) []) /\ length (nth j (snd r) []) = SEED_SIZE xof)); [lia| |].
    - exists []. split; [apply taken_0|]. split; [|split; [easy | intros; lia]].
      cbn [fst]. rewrite vsum_nil. symmetry. apply zip_fsub_0. lia.
    - intros i [lms parts] Hi (hms & Ht & E & Lp & Hp). cbn [fst snd] in *. subst lms.
      rewrite Gs by lia. cbn [bind].
      eapply post_bind; [apply helper_meas_post; [exact Hc | lia | apply Hhs; lia]|].
      cbv beta. intros h Eh Hh. rewrite sub_step by (try easy; apply Ht). cbn [bind].
      rewrite Gb by lia. cbn [bind].
      destruct (joint_rand_part_ok ctx (i + 1) (nth (1 + i * 2) hseeds []) h nonce) as (part & Epart & Lpart);
        [easy | lia | apply Hhs; lia |].
      rewrite Epart. cbn [bind post]. exists (hms ++ [h]). cbn [fst snd].
      pose proof Ht as [[Hh1 _] _].
      split; [|split; [easy | split]].
      + apply taken_S; [easy | | easy]. rewrite Gs by lia. exact Eh.
      + rewrite app_length. simpl. lia.
      + intros j Hj. destruct (Nat.eq_dec j i) as [->|Hne].
        * rewrite !app_nth2 by lia. rewrite Lp, Hh1, Nat.sub_diag. easy.
        * rewrite !app_nth1 by lia. apply Hp. lia. }
  cbv beta. intros [lms parts] _ (hms & Hhms & E & Lp & Hp). cbn [fst snd] in *. subst lms.
  set (lms := zip_with fsub meas _).
  destruct (joint_rand_part_ok ctx 0 lb lms nonce) as (part & Epart & Lpart); [easy|lia|easy|].
  rewrite Epart. cbn [bind]. cbv zeta.
  eapply post_bind; [apply prove_rands_post; [exact Hc | exact Hpl]|].
  cbv beta. intros pr Epr Lpr.
  destruct (joint_rand_seed_ok ctx (part :: parts)) as (seed & Eseed & Lseed); [easy|].
  rewrite Eseed. cbn [bind].
  eapply post_bind; [apply joint_rands_post; [exact Hc | exact Lseed]|].
  cbv beta. intros jr Ejr Ljr.
  eapply post_bind.
  { apply (post_for_range (fun i (r : list F * list F * list F) => exists proofs,
      r = (concat proofs, skipn (i * PROVE_RAND_LEN flp) pr, skipn (i * JOINT_RAND_LEN flp) jr) /\
      vecs i (PROOF_LEN flp) proofs /\
      forall k, k < i -> flp_prove flp meas (piece (PROVE_RAND_LEN flp) k pr) (piece (JOINT_RAND_LEN flp) k jr)
                         = Ok (nth k proofs []))); [lia| |].
    - exists []. split; [easy|]. split; [split; [easy | constructor] | intros; lia].
    - intros i r Hi (proofs & -> & Hv & Hk).
      rewrite (peel_piece _ _ PR pr) by (try easy; lia). cbn [bind].
      rewrite (peel_piece _ _ PR jr) by (try easy; lia). cbn [bind].
      destruct (fo_prove _ _ _ HF meas (piece (PROVE_RAND_LEN flp) i pr) (piece (JOINT_RAND_LEN flp) i jr))
        as (pf & Epf & Lpf); try easy.
      { apply piece_length with PR; [easy | lia]. }
      { apply piece_length with PR; [easy | lia]. }
      rewrite Epf. cbn [bind post]. exists (proofs ++ [pf]). split; [|split].
      + now rewrite length_concat_snoc.
      + destruct Hv as [Hv1 Hv2]. split; [rewrite app_length; simpl; lia|].
        apply Forall_app. split; [easy | now constructor].
      + intros k Hk'. destruct Hv as [Hv1 Hv2]. destruct (Nat.eq_dec k i) as [->|Hne].
        * rewrite app_nth2 by lia. now rewrite Hv1, Nat.sub_diag.
        * rewrite app_nth1 by lia. apply Hk. lia. }
  cbv beta. intros r _ (proofs & -> & Hpv & Hpk).
  assert (Lcat : length (concat proofs) = PROOF_LEN flp * PR).
  { destruct Hpv as [Hv1 Hv2]. rewrite (length_concat_const _ _ Hv2). lia. }
  eapply post_bind.
  { apply (sub_loop_post (PROOF_LEN flp * PR) (S_ - 1) (concat proofs)
       (fun j => let* share := get hshares j in helper_proofs_share p ctx (j + 1) share)).
    - easy.
    - intros. now rewrite bind_assoc.
    - intros j Hj. cbv beta. rewrite Gs by lia. cbn [bind]. apply helper_proofs_post; [easy|lia|].
      apply Hhs. lia. }
  cbv beta. intros lps _ (hps & Hhps & ->).
  rewrite (inputs_loop _ _ (fun j => Helper (nth (j * 2) hseeds []) (Some (nth (1 + j * 2) hseeds [])))).
  2:{ intros acc j Hj. rewrite Gs, Gb by lia. easy. }
  cbn [bind post].
  set (lps := zip_with fsub (concat proofs) _).
  exists (lms :: hms), (lps :: hps),
    (Some lb :: map (fun j => Some (nth (1 + j * 2) hseeds [])) (seq 0 (S_ - 1))), ps, pr, jr, proofs.
  destruct Hhms as [[Hm1 Hm2] Hm3], Hhps as [[Hq1 Hq2] Hq3].
  constructor.
  - simpl. rewrite map_length, seq_length. lia.
  - intros j d Hj. destruct j as [|j].
    + cbn [nth input_share_wf]. split; [easy|]. split; [apply zip_length_eq; [easy | apply vsum_length]|].
      split; [apply zip_length_eq; [easy | apply vsum_length]|]. unfold blind_wf.
      rewrite (proj2 (Nat.ltb_lt _ _) HJ). eauto.
    + cbn [nth]. rewrite nth_seq_map by lia. cbn [input_share_wf]. split; [easy|]. split; [apply Hhs; lia|].
      unfold blind_wf. rewrite (proj2 (Nat.ltb_lt _ _) HJ). eexists. split; [reflexivity|]. apply Hhs; lia.
  - unfold public_share_wf. rewrite (proj2 (Nat.ltb_lt _ _) HJ). exists (part :: parts). split; [easy|].
    split; [simpl; lia|]. constructor; [easy|]. apply Forall_forall. intros y Hy.
    destruct (In_nth _ _ [] Hy) as (i & Hi & <-). apply Hp. assert (i < length parts) by exact Hi. lia.
  - split; [simpl; lia|]. constructor; [|easy]. apply zip_length_eq; [easy | apply vsum_length].
  - split; [simpl; lia|]. constructor; [|easy]. apply zip_length_eq; [easy | apply vsum_length].
  - intros j Hj d. destruct j as [|j]; [easy|]. cbn [nth].
    rewrite !nth_seq_map by lia. unfold expand_input_share. cbn [Nat.ltb Nat.leb].
    specialize (Hm3 j ltac:(lia)). specialize (Hq3 j ltac:(lia)).
    rewrite Gs in Hm3, Hq3 by lia. cbn [bind] in Hm3, Hq3.
    rewrite Nat.add_1_r in Hm3, Hq3. now rewrite Hm3, Hq3.
  - now apply sub_add.
  - now apply sub_add.
  - apply Hpv.
  - easy.
  - intros k Hk. now apply Hpk.
  - rewrite (proj2 (Nat.ltb_lt _ _) HJ). exists (part :: parts), seed.
    split; [easy|]. split; [simpl; lia|]. split; [|easy].
    intros j Hj. destruct j as [|j].
    + now exists lb.
    + exists (nth (1 + j * 2) hseeds []). cbn [nth]. rewrite nth_seq_map by lia.
      split; [easy|]. split; [apply Hhs; lia|].
      rewrite <- (Nat.add_1_r j). apply Hp. lia.
  - cbn [nth]. rewrite Hr. f_equal. rewrite (flat_pairs hseeds (S_ - 1)) by easy. f_equal.
    rewrite <- seq_shift, map_map. apply map_ext_in. intros j Hj. apply in_seq in Hj.
    now rewrite nth_seq_map by lia.
Qed.

Lemma shard_seeds rand : length rand = RAND_SIZE p ->
  exists seeds : list bytes,
    (let* starts := range_step 0 (RAND_SIZE p) (SEED_SIZE xof) in
     Ok (map (fun i => slice rand i (i + SEED_SIZE xof)) starts)) = Ok seeds /\
    length seeds = (if 0 <? JOINT_RAND_LEN flp then 2 * S_ else S_) /\
    Forall (fun s => length s = SEED_SIZE xof) seeds /\ concat seeds = rand.
Proof.
  intros H. pose proof (po_seed _ _ HO).
  assert (R : RAND_SIZE p = (if 0 <? JOINT_RAND_LEN flp then 2 * S_ else S_) * SEED_SIZE xof).
  { unfold RAND_SIZE. destruct (0 <? _); lia. }
  rewrite R in *. rewrite range_step_0 by easy. cbn [bind].
  destruct (seeds_step rand _ H) as (seeds & E & Hs). rewrite E. eauto.
Qed.

Theorem shard_post ctx m meas nonce rand :
  ctx_ok ctx -> length nonce = p3_NONCE_SIZE -> length rand = RAND_SIZE p ->
  flp_encode flp m = Ok meas -> length meas = MEAS_LEN flp ->
  post (p3_shard p ctx m nonce rand)
    (fun '(ps, iss) => exists ms prs blinds prove_seed pr jr proofs,
       Report p ctx meas nonce rand ps iss ms prs blinds prove_seed pr jr proofs) E0.
Proof.
  intros Hc Hn Hr He Hm. unfold p3_shard.
  rewrite Hn, Hr, !Nat.eqb_refl. cbn [check bind]. cbv zeta.
  destruct (shard_seeds rand Hr) as (seeds & Es & Ls & Hs & Hcat).
  apply bind_Ok in Es. destruct Es as (starts & -> & Es). injection Es as Es. cbn [bind].
  rewrite Es, He. cbn [bind].
  destruct (0 <? JOINT_RAND_LEN flp) eqn:EJ.
  - apply Nat.ltb_lt in EJ. now apply shard_with_post.
  - apply Nat.ltb_ge in EJ. apply shard_without_post; try easy. lia.
Qed.
End P3F.
