(** Evaluating [run_vdaf]. *)
From Verif Require Export Vdaf PostFacts.
Open Scope nat_scope.

Lemma seq_map_S {A} (f : nat -> A) n : map f (seq 0 (S n)) = map f (seq 0 n) ++ [f n].
Proof. now rewrite seq_S, map_app. Qed.

Lemma finite_choice {A} (d : A) (R : nat -> A -> Prop) n : (forall k, k < n -> exists x, R k x) ->
  exists l, length l = n /\ forall k, k < n -> R k (nth k l d).
Proof.
  induction n as [|n IH]; intros H.
  - exists []. split; [easy | intros; lia].
  - destruct IH as (l & Hl & HR); [intros; apply H; lia|]. destruct (H n) as [x Hx]; [lia|].
    exists (l ++ [x]). split; [rewrite app_length; simpl; lia|].
    intros k Hk. destruct (Nat.eq_dec k n) as [->|Hne].
    + rewrite app_nth2, Hl, Nat.sub_diag by lia. easy.
    + rewrite app_nth1 by lia. apply HR. lia.
Qed.

Lemma upd_map_seq {A} (f g : nat -> A) n i : i < n ->
  upd (map (fun j => if j <? i then g j else f j) (seq 0 n)) i (g i)
  = map (fun j => if j <? S i then g j else f j) (seq 0 n).
Proof.
  intros Hi. apply (nth_ext' (g 0)).
  - now rewrite length_upd, !map_length.
  - intros j Hj. rewrite length_upd, map_length, seq_length in Hj.
    rewrite nth_upd by now rewrite map_length, seq_length.
    rewrite !(nth_map' _ _ _ 0) by now rewrite seq_length. rewrite seq_nth by easy. simpl plus.
    destruct (i =? j) eqn:E.
    + apply Nat.eqb_eq in E. subst j. now rewrite (proj2 (Nat.ltb_lt i (S i))) by lia.
    + apply Nat.eqb_neq in E. destruct (j <? i) eqn:E2.
      * apply Nat.ltb_lt in E2. now rewrite (proj2 (Nat.ltb_lt j (S i))) by lia.
      * apply Nat.ltb_ge in E2. now rewrite (proj2 (Nat.ltb_ge j (S i))) by lia.
Qed.

(** A loop replacing every element of a list in turn. *)
Lemma for_range_upd {A B} (n : nat) (f g : nat -> A) (h : nat -> B) (body : list A * list B -> nat -> res (list A * list B)) :
  (forall l bs j, j < n -> nth_error l j = Some (f j) -> length l = n ->
     body (l, bs) j = Ok (upd l j (g j), bs ++ [h j])) ->
  for_range 0 n (map f (seq 0 n), []) body = Ok (map g (seq 0 n), map h (seq 0 n)).
Proof.
  intros Hb.
  destruct (for_range_inv (fun i r => r = (map (fun j => if j <? i then g j else f j) (seq 0 n), map h (seq 0 i)))
    0 n (map f (seq 0 n), []) body) as (r & Hr & ->).
  - lia.
  - easy.
  - intros i r Hi ->. rewrite Hb.
    + eexists. split; [reflexivity|]. rewrite upd_map_seq by lia. now rewrite seq_map_S.
    + lia.
    + rewrite nth_error_map. rewrite (nth_error_nth' _ 0) by (rewrite seq_length; lia).
      rewrite seq_nth by lia. simpl. now rewrite Nat.ltb_irrefl.
    + now rewrite map_length, seq_length.
  - rewrite Hr. f_equal. f_equal. apply map_ext_in. intros j Hj. apply in_seq in Hj.
    now rewrite (proj2 (Nat.ltb_lt j n)) by lia.
Qed.

Lemma for_range_upd1 {A} (n : nat) (f g : nat -> A) (body : list A -> nat -> res (list A)) :
  (forall l j, j < n -> nth_error l j = Some (f j) -> length l = n -> body l j = Ok (upd l j (g j))) ->
  for_range 0 n (map f (seq 0 n)) body = Ok (map g (seq 0 n)).
Proof.
  intros Hb.
  destruct (for_range_inv (fun i r => r = map (fun j => if j <? i then g j else f j) (seq 0 n))
    0 n (map f (seq 0 n)) body) as (r & Hr & ->).
  - lia.
  - easy.
  - intros i r Hi ->. rewrite Hb.
    + eexists. split; [reflexivity|]. now rewrite upd_map_seq by lia.
    + lia.
    + rewrite nth_error_map. rewrite (nth_error_nth' _ 0) by (rewrite seq_length; lia).
      rewrite seq_nth by lia. simpl. now rewrite Nat.ltb_irrefl.
    + now rewrite map_length, seq_length.
  - rewrite Hr. f_equal. apply map_ext_in. intros j Hj. apply in_seq in Hj.
    now rewrite (proj2 (Nat.ltb_lt j n)) by lia.
Qed.

Section V.
Context (v : Vdaf).

Lemma run_verify_init_ok key ctx ap nonce ps iss st sh :
  (forall j, j < vd_SHARES v -> exists is, get iss j = Ok is /\
     vd_verify_init v key ctx j ap nonce ps is = Ok (st j, sh j)) ->
  run_verify_init v key ctx ap nonce ps iss
  = Ok (map st (seq 0 (vd_SHARES v)), map sh (seq 0 (vd_SHARES v))).
Proof.
  intros H. unfold run_verify_init.
  destruct (for_range_inv (fun i r => r = (map st (seq 0 i), map sh (seq 0 i))) 0 (vd_SHARES v) ([], [])
    (fun '(verify_states, outbound_verifier_shares) j =>
    let* input_share := get iss j in
    let* (state, share) := vd_verify_init v key ctx j ap nonce ps input_share in
    Ok (verify_states ++ [state], outbound_verifier_shares ++ [share]))) as (r & Hr & ->).
  - lia.
  - easy.
  - intros i r Hi ->. destruct (H i) as (is & -> & E); [lia|]. cbn [bind]. rewrite E. cbn [bind].
    eexists. split; [reflexivity|]. now rewrite !seq_map_S.
  - exact Hr.
Qed.

Lemma run_verify_init_raise key ctx ap nonce ps iss is e : 0 < vd_SHARES v ->
  get iss 0 = Ok is -> vd_verify_init v key ctx 0 ap nonce ps is = Raise e ->
  run_verify_init v key ctx ap nonce ps iss = Raise e.
Proof.
  intros HS H0 H1. unfold run_verify_init, for_range. rewrite range_cons by easy. cbn [foldM].
  rewrite H0. cbn [bind]. rewrite H1. easy.
Qed.

Lemma run_finish_ok ctx ap st vs msg a o a' : 
  vd_verifier_shares_to_message v ctx ap vs = Ok msg ->
  (forall j, j < vd_SHARES v -> vd_verify_next v ctx (st j) msg = Ok (inr (o j))) ->
  (forall j, j < vd_SHARES v -> vd_agg_update v ap (a j) (o j) = Ok (a' j)) ->
  run_finish v ctx ap (map st (seq 0 (vd_SHARES v))) vs (map a (seq 0 (vd_SHARES v)))
  = Ok (map a' (seq 0 (vd_SHARES v))).
Proof.
  intros Hm Hn Hu. unfold run_finish. rewrite Hm. cbn [bind].
  apply for_range_upd1. intros l j Hj Hl Hlen.
  rewrite (get_nth _ _ (st 0)) by now rewrite map_length, seq_length.
  rewrite (nth_map' _ _ _ 0), seq_nth by (rewrite ?seq_length; easy). cbn [bind plus].
  rewrite Hn by easy. cbn [bind]. unfold get. rewrite Hl. cbn [bind]. rewrite Hu by easy. cbn [bind].
  apply set_lt. lia.
Qed.

Lemma list_as_map {A} (d : A) (l : list A) : l = map (fun j => nth j l d) (seq 0 (length l)).
Proof.
  apply (nth_ext' d); [now rewrite map_length, seq_length|].
  intros i Hi. rewrite (nth_map' _ _ _ 0), seq_nth by (rewrite ?seq_length; easy). easy.
Qed.
End V.
