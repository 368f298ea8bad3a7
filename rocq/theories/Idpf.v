(** Model of /repo/poc/vdaf_poc/idpf.py and idpf_bbcggi21.py. *)
From Verif Require Export Xof.
Open Scope nat_scope.

(** idpf_bbcggi21.py:26: a vector over the inner or the leaf field.  Python
    lists carry no class of their own, so [Inner []] and [Leaf []] both stand
    for the empty list. *)
Inductive FieldVec (Pi Pl : FieldClass) : Type :=
| Inner (v : list (F Pi))
| Leaf (v : list (F Pl)).
Arguments Inner {Pi Pl} v.
Arguments Leaf {Pi Pl} v.

(** The right operand of a field operation whose left operand has class [P]:
    field.py:76-94 uses only the [val] of the right operand. *)
Definition fcast {P Q : FieldClass} (x : F Q) : F P := fof (val x).

(** [len()] of a vector, and the integers of its elements. *)
Definition fv_len {Pi Pl} (v : FieldVec Pi Pl) : nat :=
  match v with Inner l => length l | Leaf l => length l end.
Definition fv_vals {Pi Pl} (v : FieldVec Pi Pl) : list Z :=
  match v with Inner l => map fint l | Leaf l => map fint l end.
Definition fv_as {Pi Pl} (P : FieldClass) (v : FieldVec Pi Pl) : list (F P) :=
  match v with Inner l => map fcast l | Leaf l => map fcast l end.

(** common.py:74-92 on such vectors; the class of the result is the class of
    the left operand. *)
Definition fv_add {Pi Pl} (l r : FieldVec Pi Pl) : res (FieldVec Pi Pl) :=
  match l with
  | Inner a => let* v := vec_add a (fv_as Pi r) in Ok (Inner v)
  | Leaf a => let* v := vec_add a (fv_as Pl r) in Ok (Leaf v)
  end.
Definition fv_sub {Pi Pl} (l r : FieldVec Pi Pl) : res (FieldVec Pi Pl) :=
  match l with
  | Inner a => let* v := vec_sub a (fv_as Pi r) in Ok (Inner v)
  | Leaf a => let* v := vec_sub a (fv_as Pl r) in Ok (Leaf v)
  end.
Definition fv_neg {Pi Pl} (v : FieldVec Pi Pl) : FieldVec Pi Pl :=
  match v with Inner a => Inner (vec_neg a) | Leaf a => Leaf (vec_neg a) end.

(** [field.encode_vec(vec)] (field.py:47-55) for a vector of either class. *)
Definition fv_encode {Pi Pl} (P : FieldClass) (v : FieldVec Pi Pl) : res bytes :=
  foldM (fun encoded x =>
           let* e := to_le_bytes x (ENCODED_SIZE P) in
           Ok (encoded ++ e))
        (fv_vals v) [].

(** idpf_bbcggi21.py:32-62: class attributes and the attributes set by
    [__init__].  The fields and XOFs are parameters. *)
Record Idpf : Type := {
  id_field_inner : FieldClass;
  id_field_leaf : FieldClass;
  id_xof_inner : XofClass;
  id_xof_leaf : XofClass;
  id_VALUE_LEN : nat;
  id_BITS : nat;
}.
Definition id_SHARES : nat := 2.
Definition id_KEY_SIZE (i : Idpf) : nat := SEED_SIZE (id_xof_inner i).
Definition id_RAND_SIZE (i : Idpf) : nat := 2 * SEED_SIZE (id_xof_inner i).
Definition id_NONCE_SIZE (i : Idpf) : nat := SEED_SIZE (id_xof_inner i).

(** idpf_bbcggi21.py:47-62 [__init__] *)
Definition IdpfBBCGGI21_init (ts : TurboShake) (aes : BlockCipher) (bound : nat) (value_len bits : Z) : res Idpf :=
  let* _ := check (0 <? value_len)%Z AssertionError in
  let* _ := check (0 <? bits)%Z AssertionError in
  Ok {| id_field_inner := Field64; id_field_leaf := Field255;
        id_xof_inner := XofFixedKeyAes128 ts aes bound;
        id_xof_leaf := XofTurboShake128 ts bound;
        id_VALUE_LEN := Z.to_nat value_len; id_BITS := Z.to_nat bits |}.

(** [s[b]] for a two-element list [s] and a bit [b]. *)
Definition pick {A} (b : bool) (p : A * A) : A := if b then snd p else fst p.

(** idpf_bbcggi21.py:356-367 *)
Definition pack_bits (control_bits : list bool) : res bytes :=
  let packed_len := (length control_bits + 7) / 8 in
  let* buf := for_range 0 (length control_bits) (repeat 0%Z packed_len) (fun buf i =>
    let* bit := get control_bits i in
    let* o := get buf (i / 8) in
    set buf (i / 8) (Z.lor o (Z.shiftl (Z.b2z bit) (Z.of_nat (i mod 8))))) in
  Ok (map z2b buf).

(** idpf_bbcggi21.py:370-387 *)
Definition unpack_bits (packed_control_bits : bytes) (len : nat) : res (list bool) :=
  let* control_bits := mapM (fun i =>
    let* b := get packed_control_bits (i / 8) in
    Ok (negb (Z.land (Z.shiftr (b2z b) (Z.of_nat (i mod 8))) 1 =? 0)%Z)) (range 0 len) in
  let* lst := get_last packed_control_bits in
  let leftover_bits := Z.shiftr (b2z lst) (Z.of_nat ((len + 7) mod 8 + 1)) in
  let* _ := check (((len + 7) / 8 =? length packed_control_bits) && (leftover_bits =? 0)%Z)
                  (ValueError "trailing bits") in
  Ok control_bits.

Section Idpf.
Context (idpf : Idpf).
Notation Pi := (id_field_inner idpf).
Notation Pl := (id_field_leaf idpf).
Notation FVec := (FieldVec Pi Pl).
Notation KEY_SIZE := (id_KEY_SIZE idpf).
Notation BITS := (id_BITS idpf).
Notation VALUE_LEN := (id_VALUE_LEN idpf).

(** idpf_bbcggi21.py:27: seed, control bits and payload. *)
Definition CorrectionWord : Type := bytes * (bool * bool) * FVec.

(** idpf.py:134-139 [current_field] and idpf_bbcggi21.py:306-313 [current_xof]
    make the same distinction: is [level] an inner level? *)
Definition is_inner (level : nat) : bool := level <? BITS - 1.

(** idpf_bbcggi21.py:265-287, for the XOF class selected by [current_xof]. *)
Definition extend_with (X : XofClass) (seed ctx nonce : bytes) : res ((bytes * bytes) * (bool * bool)) :=
  let* d := format_dst 1 0 0 in
  let* xof := xof_init X seed (d ++ ctx) nonce in
  let* (s0, xof) := xof_next X xof KEY_SIZE in
  let* (s1, xof) := xof_next X xof KEY_SIZE in
  let* b0 := get s0 0 in
  let* b1 := get s1 0 in
  let t := (negb (Z.land (b2z b0) 1 =? 0)%Z, negb (Z.land (b2z b1) 1 =? 0)%Z) in
  let* s0 := set s0 0 (z2b (Z.land (b2z b0) 254)) in
  let* s1 := set s1 0 (z2b (Z.land (b2z b1) 254)) in
  Ok ((s0, s1), t).
Definition extend (level : nat) (seed ctx nonce : bytes) : res ((bytes * bytes) * (bool * bool)) :=
  if is_inner level then extend_with (id_xof_inner idpf) seed ctx nonce
  else extend_with (id_xof_leaf idpf) seed ctx nonce.

(** idpf_bbcggi21.py:289-304, for the XOF and field of the level. *)
Definition convert_with (X : XofClass) (P : FieldClass) (seed ctx nonce : bytes) : res (bytes * list (F P)) :=
  let* d := format_dst 1 0 1 in
  let* xof := xof_init X seed (d ++ ctx) nonce in
  let* (next_seed, xof) := xof_next X xof KEY_SIZE in
  let* (w, _) := next_vec X P xof VALUE_LEN in
  Ok (next_seed, w).
Definition convert (level : nat) (seed ctx nonce : bytes) : res (bytes * FVec) :=
  if is_inner level then
    let* (s, w) := convert_with (id_xof_inner idpf) Pi seed ctx nonce in Ok (s, Inner w)
  else
    let* (s, w) := convert_with (id_xof_leaf idpf) Pl seed ctx nonce in Ok (s, Leaf w).

(** idpf_bbcggi21.py:95-144: the body of the loop over the levels. *)
Definition gen_level (alpha : list bool) (beta_inner : list (list (F Pi))) (beta_leaf : list (F Pl))
  (ctx nonce : bytes) (st : (bytes * bytes) * (bool * bool) * list CorrectionWord) (level : nat)
  : res ((bytes * bytes) * (bool * bool) * list CorrectionWord) :=
  let '(seed, ctrl, public_share) := st in
  let* bit := get alpha level in
  let keep := bit in
  let lose := negb bit in
  let* (s0, t0) := extend level (fst seed) ctx nonce in
  let* (s1, t1) := extend level (snd seed) ctx nonce in
  let seed_cw := xor (pick lose s0) (pick lose s1) in
  let ctrl_cw := (xorb (xorb (fst t0) (fst t1)) (negb bit), xorb (xorb (snd t0) (snd t1)) bit) in
  let '(x0, ctrl0) :=
    if fst ctrl then (xor (pick keep s0) seed_cw, xorb (pick keep t0) (pick keep ctrl_cw))
    else (pick keep s0, pick keep t0) in
  let '(x1, ctrl1) :=
    if snd ctrl then (xor (pick keep s1) seed_cw, xorb (pick keep t1) (pick keep ctrl_cw))
    else (pick keep s1, pick keep t1) in
  let* (seed0, w0) := convert level x0 ctx nonce in
  let* (seed1, w1) := convert level x1 ctx nonce in
  let* b := if level <? BITS - 1 then let* v := get beta_inner level in Ok (Inner v)
            else Ok (Leaf beta_leaf) in
  let* _ := check (fv_len b =? VALUE_LEN) (ValueError "length of beta must match the value length") in
  let* d := fv_sub b w0 in
  let* w_cw := fv_add d w1 in
  let w_cw := if ctrl1 then fv_neg w_cw else w_cw in
  Ok ((seed0, seed1), (ctrl0, ctrl1), public_share ++ [(seed_cw, ctrl_cw, w_cw)]).

(** idpf_bbcggi21.py:69-145 *)
Definition idpf_gen (alpha : list bool) (beta_inner : list (list (F Pi))) (beta_leaf : list (F Pl))
  (ctx nonce rand : bytes) : res (list CorrectionWord * list bytes) :=
  let* _ := check (length alpha =? BITS) (ValueError "incorrect alpha length") in
  let* _ := check (length beta_inner =? BITS - 1) (ValueError "incorrect beta_inner length") in
  let* _ := check (length rand =? id_RAND_SIZE idpf) (ValueError "incorrect rand size") in
  let* _ := check (length nonce =? id_NONCE_SIZE idpf) (ValueError "incorrect nonce size") in
  let key0 := firstn (SEED_SIZE (id_xof_inner idpf)) rand in
  let key1 := skipn (SEED_SIZE (id_xof_inner idpf)) rand in
  let* (_, _, public_share) :=
    for_range 0 BITS ((key0, key1), (false, true), []) (gen_level alpha beta_inner beta_leaf ctx nonce) in
  Ok (public_share, [key0; key1]).

(** idpf_bbcggi21.py:255-256: [for i in range(len(y)): y[i] += w_cw[i]]. *)
Fixpoint add_into {P : FieldClass} (y w_cw : list (F P)) : res (list (F P)) :=
  match y, w_cw with
  | [], _ => Ok []
  | a :: y', w :: w' => let* r := add_into y' w' in Ok (fadd a w :: r)
  | _ :: _, [] => Raise IndexError
  end.
Definition fv_add_into (y w_cw : FVec) : res FVec :=
  match y with
  | Inner v => let* r := add_into v (fv_as Pi w_cw) in Ok (Inner r)
  | Leaf v => let* r := add_into v (fv_as Pl w_cw) in Ok (Leaf r)
  end.

(** idpf_bbcggi21.py:217-258 *)
Definition eval_next (prev_seed : bytes) (prev_ctrl : bool) (correction_word : CorrectionWord)
  (level : nat) (bit : bool) (ctx nonce : bytes) : res (bytes * bool * FVec) :=
  let '(seed_cw, ctrl_cw, w_cw) := correction_word in
  let* (s, t) := extend level prev_seed ctx nonce in
  let '(s, t) :=
    if prev_ctrl then ((xor (fst s) seed_cw, xor (snd s) seed_cw),
                       (xorb (fst t) (fst ctrl_cw), xorb (snd t) (snd ctrl_cw)))
    else (s, t) in
  let next_ctrl := pick bit t in
  let* (next_seed, y) := convert level (pick bit s) ctx nonce in
  let* y := if next_ctrl then fv_add_into y w_cw else Ok y in
  Ok (next_seed, next_ctrl, y).

(** [x in l] and [len(set(l)) == len(l)] for tuples of booleans. *)
Fixpoint bits_eqb (a b : list bool) : bool :=
  match a, b with
  | [], [] => true
  | x :: a', y :: b' => Bool.eqb x y && bits_eqb a' b'
  | _, _ => false
  end.
Definition mem_bits (x : list bool) (l : list (list bool)) : bool := existsb (bits_eqb x) l.
Fixpoint all_unique (l : list (list bool)) : bool :=
  match l with
  | [] => true
  | x :: t => negb (mem_bits x t) && all_unique t
  end.

(** idpf_bbcggi21.py:171-211: the node for one prefix.  [y] is assigned in
    the loop, which runs at least once; its initial value here is never used. *)
Definition eval_prefix (agg_id : nat) (public_share : list CorrectionWord) (key : bytes) (level : Z)
  (ctx nonce : bytes) (prefix : list bool) : res FVec :=
  let* _ := check (Z.of_nat (length prefix) =? level + 1)%Z (ValueError "incorrect prefix length") in
  let* (_, _, y) :=
    for_range 0 (Z.to_nat (level + 1)) (key, negb (agg_id =? 0), Inner []) (fun '(seed, ctrl, _) current_level =>
      let* bit := get prefix current_level in
      let* cw := get public_share current_level in
      eval_next seed ctrl cw current_level bit ctx nonce) in
  Ok (if agg_id =? 0 then y else fv_neg y).

(** idpf_bbcggi21.py:153-215 *)
Definition idpf_eval (agg_id : nat) (public_share : list CorrectionWord) (key : bytes) (level : Z)
  (prefixes : list (list bool)) (ctx nonce : bytes) : res (list FVec) :=
  let* _ := check (agg_id <? id_SHARES) (ValueError "aggregator id out of range") in
  let* _ := check ((0 <=? level) && (level <? Z.of_nat BITS))%Z (ValueError "level out of range") in
  let* _ := check (all_unique prefixes) (ValueError "prefixes must be unique") in
  foldM (fun out_share prefix =>
    let* y := eval_prefix agg_id public_share key level ctx nonce prefix in
    Ok (out_share ++ [y])) prefixes [].

(** idpf.py:141-149 *)
Definition is_prefix (x y : list bool) (level : nat) : bool := bits_eqb x (firstn (level + 1) y).

(** idpf_bbcggi21.py:315-326.  [zip( *[] )] unpacks to too few values. *)
Definition idpf_encode_public_share (public_share : list CorrectionWord) : res bytes :=
  match public_share with
  | [] => Raise (ValueError "not enough values to unpack")
  | first :: rest =>
    let seeds := map (fun cw => fst (fst cw)) public_share in
    let ctrl := map (fun cw => snd (fst cw)) public_share in
    let payloads := map (fun cw => snd cw) public_share in
    let* encoded_ctrl := pack_bits (concat (map (fun c => [fst c; snd c]) ctrl)) in
    let encoded := encoded_ctrl ++ concat seeds in
    let* encoded := foldM (fun encoded payload =>
      let* e := fv_encode Pi payload in Ok (encoded ++ e)) (removelast payloads) encoded in
    let* e := fv_encode Pl (last payloads (snd first)) in
    Ok (encoded ++ e)
  end.

(** idpf_bbcggi21.py:328-353 *)
Definition idpf_decode_public_share (encoded : bytes) : res (list CorrectionWord) :=
  let* (encoded_ctrl, encoded) := front ((2 * BITS + 7) / 8) encoded in
  let* flattened_ctrl := unpack_bits encoded_ctrl (2 * BITS) in
  let* ctrl := mapM (fun level =>
    let* a := get flattened_ctrl (2 * level) in
    let* b := get flattened_ctrl (2 * level + 1) in
    Ok (a, b)) (range 0 BITS) in
  let* (seeds, encoded) := for_range 0 BITS ([], encoded) (fun '(seeds, encoded) _ =>
    let* (seed, encoded) := front KEY_SIZE encoded in
    Ok (seeds ++ [seed], encoded)) in
  let* (payloads, encoded) := for_range 0 BITS ([], encoded) (fun '(payloads, encoded) level =>
    if is_inner level then
      let* (encoded_payload, encoded) := front (ENCODED_SIZE Pi * VALUE_LEN) encoded in
      let* payload := decode_vec encoded_payload in
      Ok (payloads ++ [Inner payload], encoded)
    else
      let* (encoded_payload, encoded) := front (ENCODED_SIZE Pl * VALUE_LEN) encoded in
      let* payload := decode_vec encoded_payload in
      Ok (payloads ++ [Leaf payload], encoded)) in
  let* _ := check (length encoded =? 0) (ValueError "trailing bytes") in
  Ok (combine (combine seeds ctrl) payloads).
End Idpf.
