(** What the VDAF and DAF test harnesses accept. *)
From Verif Require Import VdafTests FieldTestsFacts IdpfTestsFacts Prio3Spec Poplar1Spec PostFacts.
Open Scope nat_scope.

Lemma attach_meas {M} d (ms : list M) : map meas_of (attach d ms) = ms.
Proof.
  unfold attach, enumerate. rewrite map_map. generalize 0. induction ms as [|m ms IH]; intros n; cbn; [reflexivity|]. f_equal. apply IH.
Qed.
Lemma attach_In {M} d (ms : list M) m nonce rand : In (m, nonce, rand) (attach d ms) ->
  exists i, i < length ms /\ nonce = fst (d i) /\ rand = snd (d i).
Proof.
  unfold attach, enumerate. intros H. apply in_map_iff in H as ([i x] & E & H). injection E as <- <- <-.
  apply in_combine_l in H. apply in_seq in H. exists i. repeat split. lia.
Qed.
Lemma attach_length {M} d (ms : list M) : length (attach d ms) = length ms.
Proof. unfold attach, enumerate. rewrite map_length, combine_length, seq_length. lia. Qed.

(** The draws have the sizes that gen_rand was asked for. *)
Definition draws_ok (key nonce rand : nat) (d : draws_t) : Prop :=
  length (fst d) = key /\ forall i, length (fst (snd d i)) = nonce /\ length (snd (snd d i)) = rand.

Lemma attach_sizes {M} p (ms : list M) key d : draws_ok key p3_NONCE_SIZE (RAND_SIZE p) d -> sizes_ok p (attach (snd d) ms).
Proof.
  intros [_ H]. apply Forall_forall. intros [[m nonce] rand] Hin. apply attach_In in Hin as (i & _ & -> & ->). apply H.
Qed.

Definition id_ok (z : Z) : bool := ((0 <=? z)%Z && (z <? 2 ^ 32)%Z)%bool.

(** The harness: the outcome of the run is compared with the expected one. *)
Lemma vdaf_test_outcome (vdaf : Vdaf) eqb agg_param ms expected d : run_vdaf_test vdaf eqb agg_param ms expected d =
  if id_ok (vd_ID vdaf) then
    match run_vdaf vdaf (fst d) agg_param (byte_literal "some application context") (attach (snd d) ms) with
    | Ok r => if eqb r expected then Ok tt else Raise AssertionError
    | Raise e => Raise e
    end
  else Raise AssertionError.
Proof.
  unfold run_vdaf_test, assert_true, id_ok. destruct (_ && _)%bool; cbn [bind]; [|reflexivity].
  destruct (run_vdaf _ _ _ _ _) as [r|e]; cbn [bind]; [|reflexivity]. now destruct (eqb r expected).
Qed.
Lemma daf_test_outcome (daf : Daf) eqb agg_param ms expected d : run_daf_test daf eqb agg_param ms expected d =
  if id_ok (df_ID daf) then
    match run_daf daf (byte_literal "some application") agg_param (attach d ms) with
    | Ok r => if eqb r expected then Ok tt else Raise AssertionError
    | Raise e => Raise e
    end
  else Raise AssertionError.
Proof.
  unfold run_daf_test, assert_true, id_ok. destruct (_ && _)%bool; cbn [bind]; [|reflexivity].
  destruct (run_daf _ _ _ _) as [r|e]; cbn [bind]; [|reflexivity]. now destruct (eqb r expected).
Qed.

(** The only ways in which a correct Prio3 test may end with an exception: the
    model's loop bound, or a rejected query randomness. *)
Definition excused (p : Prio3) (good : list (F (p3_field p)) -> Prop) (draws : nat -> draws_t) (e : exn) : Prop :=
  (e = OutOfFuel /\ ran_out p) \/
  (exists msg, e = ValueError msg) /\
  exists k i, bad_query p good (fst (draws k)) (byte_literal "some application context") (fst (snd (draws k) i)).

Lemma prio3_tests (p : Prio3) good eqb calls draws :
  (forall r, eqb r r = true) -> id_ok (p3_ID p) = true ->
  (forall k ap ms r, nth_error calls k = Some (ap, ms, r) ->
     run_result p good (fst (draws k)) (byte_literal "some application context") (attach (snd (draws k)) ms) r) ->
  post (run_vdaf_tests (Prio3Vdaf p) eqb calls draws) (fun _ => True) (excused p good draws).
Proof.
  intros Hr Hid H. unfold run_vdaf_tests.
  match goal with |- post ?m _ _ => destruct m as [[]|e] eqn:EM end; cbn [post]; [easy|].
  revert EM. apply (foldM_unit_raise _ (excused p good draws)). clear e.
  intros [k [[ap ms] r]] e Hin. cbv iota beta. rewrite vdaf_test_outcome.
  change (vd_ID (Prio3Vdaf p)) with (p3_ID p). rewrite Hid.
  assert (Hk : nth_error calls k = Some (ap, ms, r)).
  { unfold enumerate in Hin. apply (In_nth _ _ (0, (ap, ms, r))) in Hin as (t & Ht & E).
    rewrite combine_length, seq_length, Nat.min_id in Ht. rewrite combine_nth in E by apply seq_length.
    rewrite seq_nth in E by exact Ht. apply pair_equal_spec in E as [<- E]. rewrite <- E. now apply nth_error_nth'. }
  destruct ap. specialize (H k tt ms r Hk).
  match goal with |- match ?m with Ok _ => _ | Raise _ => _ end = _ -> _ => set (run := m) end.
  destruct H as [E|[[E R]|(msg & E & m & nonce & rand & Hm & B)]].
  - change (run = Ok r) in E. rewrite E, Hr. discriminate.
  - change (run = Raise OutOfFuel) in E. rewrite E. intros X. injection X as <-. left. easy.
  - change (run = Raise (ValueError msg)) in E. rewrite E. intros X. injection X as <-. right. split; [eauto|].
    apply attach_In in Hm as (i & _ & -> & _). exists k, i. exact B.
Qed.

Lemma post_seq {A B} (m : res A) (k : res B) Q E1 E2 : post m (fun _ => True) E1 -> post k Q E2 ->
  post (let* _ := m in k) Q (fun e => E1 e \/ E2 e).
Proof. destruct m; cbn; [|auto]. intros _ H. destruct k; cbn in *; auto. Qed.
Lemma ints_eqb_refl x : ints_eqb x x = true.
Proof. now apply ints_eqb_eq. Qed.
