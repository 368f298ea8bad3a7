(** The listings of the document and the reference code: proofs. *)
From Verif Require Import Draft DraftSpec BaseFacts.
From Coq Require Import Lia.
Open Scope nat_scope.

Lemma same_refl {A} (m : res A) : same_unless_removed m m.
Proof. now left. Qed.
Lemma same_removed {A} e (m : res A) : removed e -> same_unless_removed (Raise e) m.
Proof. right. now exists e. Qed.

Lemma same_bind {A B} (m m' : res A) (k k' : A -> res B) :
  same_unless_removed m m' -> (forall x, same_unless_removed (k x) (k' x)) ->
  same_unless_removed (bind m k) (bind m' k').
Proof.
  intros [E|(e & E & He)] Hk; subst.
  - destruct m' as [x|e]; cbn; [apply Hk|apply same_refl].
  - right. exists e. auto.
Qed.

Lemma same_check {B} b e (k k' : res B) : removed e -> same_unless_removed k k' ->
  same_unless_removed (bind (check b e) (fun _ => k)) k'.
Proof. intros He Hk. destruct b; cbn; [exact Hk|now apply same_removed]. Qed.

Lemma same_skip {A B} (m : res A) (k k' : res B) : (forall e, m = Raise e -> removed e) -> same_unless_removed k k' ->
  same_unless_removed (bind m (fun _ => k)) k'.
Proof. intros He Hk. destruct m as [x|e]; cbn; [exact Hk|apply same_removed; now apply He]. Qed.

Lemma same_foldM {A B} (f g : B -> A -> res B) l : forall acc,
  (forall b a, same_unless_removed (f b a) (g b a)) -> same_unless_removed (foldM f l acc) (foldM g l acc).
Proof.
  induction l as [|x l IH]; intros acc H; cbn; [apply same_refl|].
  apply same_bind; [apply H|]. intros b. now apply IH.
Qed.
Lemma same_for_range {B} a b (acc : B) f g : (forall x i, same_unless_removed (f x i) (g x i)) ->
  same_unless_removed (for_range a b acc f) (for_range a b acc g).
Proof. intros H. apply same_foldM. exact H. Qed.
Lemma same_mapM {A B} (f g : A -> res B) l : (forall a, same_unless_removed (f a) (g a)) ->
  same_unless_removed (mapM f l) (mapM g l).
Proof.
  intros H. induction l as [|x l IH]; cbn; [apply same_refl|].
  apply same_bind; [apply H|]. intros y. apply same_bind; [exact IH|]. intros ys. apply same_refl.
Qed.

(** One step of a proof that two programs do the same. *)
Ltac same_step :=
  match goal with
  | |- same_unless_removed ?a ?a => exact (same_refl a)
  | |- same_unless_removed (bind (check _ ?e) _) _ =>
      first [ apply same_check; [exact I|] | apply same_check; [solve [cbn; tauto]|] ]
  | |- same_unless_removed (bind ?m _) (bind ?m' _) => apply same_bind; [|intros ?]
  | |- same_unless_removed (foldM _ ?l ?a) (foldM _ ?l ?a) => apply same_foldM; intros ? ?
  | |- same_unless_removed (for_range _ _ _ _) (for_range _ _ _ _) => apply same_for_range; intros ? ?
  | |- same_unless_removed (mapM _ ?l) (mapM _ ?l) => apply same_mapM; intros ?
  | |- same_unless_removed (match ?x with _ => _ end) _ => destruct x
  end.

(** ** The XOFs *)
Lemma stream_skip s n k : k <= n -> skipn k (stream_bytes s 0 n) = stream_bytes s k (n - k).
Proof.
  intros H. unfold stream_bytes. rewrite skipn_map. f_equal.
  replace n with (k + (n - k)) at 1 by lia. rewrite seq_app.
  rewrite skipn_app, skipn_all2 by (rewrite seq_length; lia).
  rewrite seq_length, Nat.sub_diag. reflexivity.
Qed.

Lemma draft_next ts st len : 0 < len -> draft_ts_next ts st len = xof_next (XofTurboShake128 ts 0) st len.
Proof.
  intros H. destruct st as [m l]. cbn. unfold last_n.
  destruct (len =? 0) eqn:E; [apply Nat.eqb_eq in E; lia|].
  do 2 f_equal. unfold stream_bytes at 1. rewrite map_length, seq_length.
  replace (l + len - len) with l by lia. rewrite stream_skip by lia. f_equal. lia.
Qed.

(** A XOF class with other methods. *)
Definition renext (X : XofClass) (init : bytes -> bytes -> bytes -> res (xof_state X))
  (next : xof_state X -> nat -> res (bytes * xof_state X)) : XofClass :=
  {| SEED_SIZE := SEED_SIZE X; xof_state := xof_state X; xof_init := init; xof_next := next; loop_bound := loop_bound X |}.

Section Renext.
Context (X : XofClass) (init : bytes -> bytes -> bytes -> res (xof_state X))
  (next : xof_state X -> nat -> res (bytes * xof_state X)).
Hypothesis Hinit : forall seed dst binder, init seed dst binder = xof_init X seed dst binder.
Hypothesis Hnext : forall st len, 0 < len -> next st len = xof_next X st len.
Hypothesis HX : 0 < SEED_SIZE X.
Notation X' := (renext X init next).

Lemma renext_derive seed dst binder : derive_seed X' seed dst binder = derive_seed X seed dst binder.
Proof.
  unfold derive_seed. cbn. rewrite Hinit. destruct (xof_init X seed dst binder) as [st|e]; [cbn|reflexivity]. now rewrite Hnext.
Qed.

Lemma renext_loop P (HP : 0 < ENCODED_SIZE P) m len : forall fuel st vec,
  next_vec_loop X' P fuel m len st vec = next_vec_loop X P fuel m len st vec.
Proof.
  induction fuel as [|fuel IH]; intros st vec; cbn [next_vec_loop]; [reflexivity|].
  destruct (length vec <? len); [|reflexivity]. cbn [xof_next renext]. rewrite Hnext by exact HP.
  destruct (xof_next X st (ENCODED_SIZE P)) as [[b st']|e]; [cbn [bind]|reflexivity].
  destruct (_ <? MODULUS P)%Z; [|apply IH]. destruct (field_init _) as [x|e]; [cbn [bind]; apply IH|reflexivity].
Qed.
Lemma renext_vec P (HP : 0 < ENCODED_SIZE P) st len : next_vec X' P st len = next_vec X P st len.
Proof. unfold next_vec. destruct (next_power_of_2 _); [cbn [bind]|reflexivity]. now apply renext_loop. Qed.
Lemma renext_expand P (HP : 0 < ENCODED_SIZE P) seed dst binder len :
  expand_into_vec X' P seed dst binder len = expand_into_vec X P seed dst binder len.
Proof.
  unfold expand_into_vec. cbn [xof_init renext]. rewrite Hinit.
  destruct (xof_init X seed dst binder) as [st|e]; [cbn [bind]|reflexivity].
  now rewrite renext_vec.
Qed.
End Renext.

Lemma draft_ts_init ts bound seed dst binder :
  xof_init (DraftXofTurboShake128 ts bound) seed dst binder = xof_init (XofTurboShake128 ts bound) seed dst binder.
Proof.
  cbn. unfold turboshake_message. destruct (to_le_bytes (Z.of_nat (length dst)) 2); [cbn|reflexivity].
  destruct (to_le_bytes (Z.of_nat (length seed)) 1); reflexivity.
Qed.
Lemma draft_ts_derive ts bound seed dst binder :
  derive_seed (DraftXofTurboShake128 ts bound) seed dst binder = derive_seed (XofTurboShake128 ts bound) seed dst binder.
Proof.
  apply (renext_derive (XofTurboShake128 ts bound) _ (draft_ts_next ts) (draft_ts_init ts bound)).
  - intros st len Hl. now apply draft_next.
  - cbn; lia.
Qed.
Lemma draft_ts_expand ts bound P (HP : 0 < ENCODED_SIZE P) seed dst binder len :
  expand_into_vec (DraftXofTurboShake128 ts bound) P seed dst binder len = expand_into_vec (XofTurboShake128 ts bound) P seed dst binder len.
Proof.
  apply (renext_expand (XofTurboShake128 ts bound) _ (draft_ts_next ts) (draft_ts_init ts bound)); [|exact HP].
  intros st l Hl. now apply draft_next.
Qed.
Lemma draft_aes_init ts aes bound seed dst binder :
  xof_init (DraftXofFixedKeyAes128 ts aes bound) seed dst binder = xof_init (XofFixedKeyAes128 ts aes bound) seed dst binder.
Proof.
  cbn. unfold aes_init, fixed_key_message. destruct (check _ _); [cbn|reflexivity].
  destruct (to_le_bytes (Z.of_nat (length dst)) 2); reflexivity.
Qed.

(** ** Gadgets *)
Section FlpSame.
Context {P : NttFieldClass}.

Lemma gadget_same g : forall inp : list (F P), same_unless_removed (gadget_eval g inp) (draft_gadget_eval g inp).
Proof.
  induction g as [|p n|sub IH count]; intros inp; cbn [gadget_eval draft_gadget_eval]; unfold check_gadget_eval.
  - repeat same_step.
  - repeat same_step.
  - same_step. same_step. same_step; [apply IH|]. same_step.
Qed.

Lemma poly_check_removed g (inp : list (list (F P))) e : check_gadget_eval_poly g inp = Raise e -> removed e.
Proof.
  unfold check_gadget_eval_poly. destruct (_ =? _); cbn; [|intros E; injection E as <-; cbn; tauto].
  destruct (forallb _ _); cbn; [discriminate|]. intros E; injection E as <-; cbn; tauto.
Qed.
Lemma gadget_poly_same g : forall inp : list (list (F P)), same_unless_removed (gadget_eval_poly g inp) (draft_gadget_eval_poly g inp).
Proof.
  induction g as [|p n|sub IH count]; intros inp; cbn [gadget_eval_poly draft_gadget_eval_poly];
    (apply same_skip; [apply poly_check_removed|]).
  - apply same_refl.
  - apply same_refl.
  - same_step; [same_step|]. same_step. same_step; [apply IH|]. same_step.
Qed.

(** ** Circuits *)
Inductive psame {A} : prog P A -> prog P A -> Prop :=
| psame_ret a : psame (Ret a) (Ret a)
| psame_fail e : psame (Fail e) (Fail e)
| psame_removed e m : removed e -> psame (Fail e) m
| psame_call i inp k k' : (forall y, psame (k y) (k' y)) -> psame (Call i inp k) (Call i inp k').

Lemma psame_refl {A} (m : prog P A) : psame m m.
Proof. induction m; constructor; auto. Qed.
Lemma psame_check {A} (m : res unit) (k k' : prog P A) : (forall e, m = Raise e -> removed e) -> psame k k' ->
  psame (pbind (plift m) (fun _ => k)) k'.
Proof. intros He Hk. destruct m as [x|e]; cbn; [exact Hk|apply psame_removed; now apply He]. Qed.

Lemma run_same {St A} (h h' : St -> nat -> list (F P) -> res (F P * St)) :
  (forall s i inp, same_unless_removed (h s i inp) (h' s i inp)) ->
  forall (m m' : prog P A), psame m m' -> forall s, same_unless_removed (run h m s) (run h' m' s).
Proof.
  intros Hh m m' H. induction H; intros s; cbn [run].
  - apply same_refl.
  - apply same_refl.
  - now apply same_removed.
  - apply same_bind; [apply Hh|]. intros [y s']. auto.
Qed.

(** A circuit and its listing. *)
Definition circuit_same (v : Valid P) enc trunc ev : Prop :=
  (forall m, same_unless_removed (valid_encode v m) (enc m)) /\
  (forall x, same_unless_removed (valid_truncate v x) (trunc x)) /\
  (forall meas jr n, psame (valid_eval v meas jr n) (ev meas jr n)).

Lemma eval_check_removed n k (meas jr : list (F P)) e : check_valid_eval n k meas jr = Raise e -> removed e.
Proof.
  unfold check_valid_eval. destruct (_ =? _); cbn; [|intros E; injection E as <-; cbn; tauto].
  destruct (_ =? _); cbn; [discriminate|]. intros E; injection E as <-; cbn; tauto.
Qed.
Lemma prove_wrap_same v enc trunc ev (rand : list (F P)) :
  same_unless_removed (ProveGadget_wrap v rand) (draft_ProveGadget_wrap (relist v enc trunc ev) rand).
Proof.
  unfold ProveGadget_wrap, draft_ProveGadget_wrap. same_step.
  apply same_bind; [|intros [wrapped rest]; repeat same_step].
  cbn [GADGETS GADGET_CALLS relist]. same_step. destruct b as [w r], a as [g c].
  same_step; [same_step|]. destruct x as [ws r']. same_step; [|same_step].
  unfold ProveGadget_init, draft_ProveGadget_init. repeat same_step.
Qed.
Lemma query_wrap_same v enc trunc ev (proof : list (F P)) :
  same_unless_removed (QueryGadget_wrap v proof) (draft_QueryGadget_wrap (relist v enc trunc ev) proof).
Proof.
  unfold QueryGadget_wrap, draft_QueryGadget_wrap. same_step.
  apply same_bind; [|intros [wrapped rest]; repeat same_step].
  cbn [GADGETS GADGET_CALLS relist]. same_step. destruct b as [w r], a as [g c].
  same_step; [same_step|]. destruct x as [ws r']. same_step; [same_step|]. destruct x as [gp r''].
  same_step; [|same_step].
  unfold QueryGadget_init, draft_QueryGadget_init. repeat same_step.
Qed.

Section OneCircuit.
Context (v : Valid P) enc trunc ev (H : circuit_same v enc trunc ev).
Notation v' := (relist v enc trunc ev).

Lemma prove_same meas prove_rand joint_rand :
  same_unless_removed (bbcggi19_prove v meas prove_rand joint_rand) (draft_prove v' meas prove_rand joint_rand).
Proof.
  destruct H as (_ & _ & He). unfold bbcggi19_prove, draft_prove. do 3 same_step.
  apply same_bind; [apply prove_wrap_same|]. intros gs.
  apply same_bind.
  - cbn [valid_eval relist]. apply run_same; [|apply He]. intros s i inp. unfold prove_handler, draft_prove_handler.
    same_step; [same_step|]. apply same_bind; [|intros [y g']; same_step].
    unfold ProveGadget_eval, draft_ProveGadget_eval. same_step; [same_step|]. same_step; [apply gadget_same|same_step].
  - intros [_ gs']. cbn [GADGET_CALLS relist].
    destruct (same_foldM (fun proof '(g, c) => prove_gadget proof g c) (fun proof '(g, c) => draft_prove_gadget proof g c)
      (combine gs' (GADGET_CALLS v)) []) as [E|(e & E & Hr)].
    + intros pf [g c]. unfold prove_gadget, draft_prove_gadget. same_step. same_step; [same_step|]. same_step.
      same_step; [same_step|]. same_step; [apply gadget_poly_same|same_step].
    + rewrite E. clear E. match goal with |- same_unless_removed (bind ?m _) ?m' => change m' with m; destruct m as [pf|e] end;
        [|apply same_refl]. cbn [bind]. repeat same_step.
    + rewrite E. now apply same_removed.
Qed.

Lemma query_same meas proof query_rand joint_rand n :
  same_unless_removed (bbcggi19_query v meas proof query_rand joint_rand n) (draft_query v' meas proof query_rand joint_rand n).
Proof.
  destruct H as (_ & _ & He). unfold bbcggi19_query, draft_query. do 4 same_step.
  apply same_bind; [apply query_wrap_same|]. intros gs.
  apply same_bind.
  - cbn [valid_eval relist]. apply run_same; [|apply He]. intros; apply same_refl.
  - intros [out gs']. same_step. change (reduce_output v' out query_rand) with (reduce_output v out query_rand).
    apply same_refl.
Qed.

Lemma decide_same verifier : same_unless_removed (bbcggi19_decide v verifier) (draft_decide v' verifier).
Proof.
  unfold bbcggi19_decide, draft_decide. same_step. apply same_bind; [apply same_refl|]. intros [x rest].
  destruct (negb _); [apply same_refl|]. cbn [GADGETS relist]. revert rest.
  induction (GADGETS v) as [|g gs IH]; intros rest; cbn [decide_gadgets draft_decide_gadgets].
  - repeat same_step.
  - apply same_bind; [apply same_refl|]. intros [wc r1]. apply same_bind; [apply same_refl|]. intros [gc r2].
    apply same_bind; [apply gadget_same|]. intros y. destruct (negb _); [apply same_refl|apply IH].
Qed.
End OneCircuit.

(** ** The five circuits of the document *)
Lemma plift_same {A B} (m : res A) (k : A -> prog P B) : psame (pbind (plift m) k) (pbind (plift m) k).
Proof. apply psame_refl. Qed.

Lemma count_same : circuit_same (Count P) (valid_encode (DraftCount P)) (valid_truncate (DraftCount P)) (valid_eval (DraftCount P)).
Proof.
  split; [|split].
  - intros m. cbn. destruct (_ && _); [apply same_refl|apply same_removed; cbn; tauto].
  - intros x. cbn. destruct (_ =? _); [apply same_refl|apply same_removed; cbn; tauto].
  - intros meas jr n. cbn [valid_eval Count DraftCount relist]. apply psame_check; [apply eval_check_removed|apply psame_refl].
Qed.
Lemma sum_same max : circuit_same (Sum P max) (valid_encode (DraftSum P max)) (valid_truncate (DraftSum P max)) (valid_eval (DraftSum P max)).
Proof.
  split; [|split]; try (intros; apply same_refl).
  intros meas jr n. cbn [valid_eval Sum DraftSum relist]. apply psame_check; [apply eval_check_removed|apply psame_refl].
Qed.
Lemma sumvec_same len max chunk : circuit_same (SumVec P len max chunk) (valid_encode (DraftSumVec P len max chunk))
  (valid_truncate (DraftSumVec P len max chunk)) (valid_eval (DraftSumVec P len max chunk)).
Proof.
  split; [|split].
  - intros m. cbn [valid_encode SumVec DraftSumVec relist]. destruct (negb _); [apply same_removed; cbn; tauto|].
    apply same_foldM. intros b a. destruct (_ || _); [apply same_removed; cbn; tauto|apply same_refl].
  - intros; apply same_refl.
  - intros meas jr n. cbn [valid_eval SumVec DraftSumVec relist]. apply psame_check; [apply eval_check_removed|apply psame_refl].
Qed.
Lemma histogram_same len chunk : circuit_same (Histogram P len chunk) (valid_encode (DraftHistogram P len chunk))
  (valid_truncate (DraftHistogram P len chunk)) (valid_eval (DraftHistogram P len chunk)).
Proof.
  split; [|split]; try (intros; apply same_refl).
  intros meas jr n. cbn [valid_eval Histogram DraftHistogram relist]. apply psame_check; [apply eval_check_removed|apply psame_refl].
Qed.
Lemma multihot_same len mw chunk : circuit_same (MultihotCountVec P len mw chunk) (valid_encode (DraftMultihotCountVec P len mw chunk))
  (valid_truncate (DraftMultihotCountVec P len mw chunk)) (valid_eval (DraftMultihotCountVec P len mw chunk)).
Proof.
  split; [|split]; try (intros; apply same_refl).
  intros meas jr n. cbn [valid_eval MultihotCountVec DraftMultihotCountVec relist].
  apply psame_check; [apply eval_check_removed|apply psame_refl].
Qed.
End FlpSame.
