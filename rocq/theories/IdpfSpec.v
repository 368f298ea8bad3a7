(** Vocabulary for the IDPF properties.  Nothing here models a /repo function. *)
From Verif Require Export Idpf XofSpec CodecProofs Prio3Spec.
Open Scope nat_scope.

(** A XOF class whose instances can be made from seeds of [n] bytes (not
    necessarily SEED_SIZE) and are streams. *)
Record XofFor (X : XofClass) (n : nat) (lim : Z) : Prop := {
  xf_init : forall seed dst binder, length seed = n ->
    (Z.of_nat (length dst) < 65536)%Z -> exists st, xof_init X seed dst binder = Ok st;
  xf_stream : forall seed dst binder st, xof_init X seed dst binder = Ok st ->
    exists s at_, streams X lim st s at_;
}.

(** What the theorems assume of an IDPF object. *)
Record IdpfOk (i : Idpf) (lim : Z) : Prop := {
  io_inner : XofFor (id_xof_inner i) (id_KEY_SIZE i) lim;
  io_leaf : XofFor (id_xof_leaf i) (id_KEY_SIZE i) lim;
  io_lim_inner : (Z.of_nat (2 * id_KEY_SIZE i + loop_bound (id_xof_inner i) * ENCODED_SIZE (id_field_inner i)) < lim)%Z;
  io_lim_leaf : (Z.of_nat (2 * id_KEY_SIZE i + loop_bound (id_xof_leaf i) * ENCODED_SIZE (id_field_leaf i)) < lim)%Z;
  io_key : 0 < id_KEY_SIZE i;
  io_bits : 0 < id_BITS i;
}.

(** Some expansion hit the model's bound on the rejection-sampling loop. *)
Definition idpf_ran_out (i : Idpf) : Prop :=
  exists level seed ctx nonce, convert i level seed ctx nonce = Raise OutOfFuel.

(** The vector has [n] elements of the field of the level. *)
Definition of_level (i : Idpf) (level n : nat) (v : FieldVec (id_field_inner i) (id_field_leaf i)) : Prop :=
  match v with
  | Inner l => level < id_BITS i - 1 /\ length l = n
  | Leaf l => id_BITS i - 1 <= level /\ length l = n
  end.

(** The value programmed at [level]: beta, and zero. *)
Definition beta_at (i : Idpf) (beta_inner : list (list (F (id_field_inner i)))) (beta_leaf : list (F (id_field_leaf i)))
  (level : nat) : FieldVec (id_field_inner i) (id_field_leaf i) :=
  if level <? id_BITS i - 1 then Inner (nth level beta_inner []) else Leaf beta_leaf.
Definition zero_at (i : Idpf) (level n : nat) : FieldVec (id_field_inner i) (id_field_leaf i) :=
  if level <? id_BITS i - 1 then Inner (repeat f0 n) else Leaf (repeat f0 n).

(** The point function: beta on the path to [alpha], zero elsewhere. *)
Definition point_value (i : Idpf) (alpha : list bool) (beta_inner : list (list (F (id_field_inner i))))
  (beta_leaf : list (F (id_field_leaf i))) (level : nat) (prefix : list bool)
  : FieldVec (id_field_inner i) (id_field_leaf i) :=
  if list_eq_dec Bool.bool_dec prefix (firstn (S level) alpha) then beta_at i beta_inner beta_leaf level
  else zero_at i level (id_VALUE_LEN i).

(** Well-formed arguments of gen. *)
Record gen_args_ok (i : Idpf) (alpha : list bool) (beta_inner : list (list (F (id_field_inner i))))
  (beta_leaf : list (F (id_field_leaf i))) (ctx nonce rand : bytes) : Prop := {
  ga_alpha : length alpha = id_BITS i;
  ga_inner : length beta_inner = id_BITS i - 1;
  ga_inner_len : Forall (fun b => length b = id_VALUE_LEN i) beta_inner;
  ga_leaf_len : length beta_leaf = id_VALUE_LEN i;
  ga_ctx : ctx_ok ctx;
  ga_nonce : length nonce = id_NONCE_SIZE i;
  ga_rand : length rand = id_RAND_SIZE i;
}.

(** Well-formed public shares: one correction word per level. *)
Definition idpf_public_wf (i : Idpf) (ps : list (CorrectionWord i)) : Prop :=
  length ps = id_BITS i /\
  forall l cw, nth_error ps l = Some cw ->
    length (fst (fst cw)) = id_KEY_SIZE i /\ of_level i l (id_VALUE_LEN i) (snd cw).
