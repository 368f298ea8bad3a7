(** What one Aggregator sees of an IDPF sharing: its key and the public share.
    Nothing here models a /repo function. *)
From Verif Require Export IdpfSpec.
Open Scope nat_scope.

Section V.
Context (i : Idpf).
Notation Pi := (id_field_inner i).
Notation Pl := (id_field_leaf i).
Notation FVec := (FieldVec Pi Pl).
Notation KEY := (id_KEY_SIZE i).
Notation BITS := (id_BITS i).
Notation VLEN := (id_VALUE_LEN i).

(** A seed, two control bits and a payload: the shape of a correction word, and
    of what the XOFs yield for one key at one level (the seed of the child off the
    path, the control bits of both children and the payload of the child on the
    path).  Seeds come with the lowest bit cleared. *)
Definition Mask : Type := bytes * (bool * bool) * FVec.
Definition even_seed (s : bytes) : Prop := Z.land (b2z (nth 0 s x00)) 1 = 0%Z.
Definition word_wf (level : nat) (m : Mask) : Prop :=
  length (fst (fst m)) = KEY /\ even_seed (fst (fst m)) /\ of_level i level VLEN (snd m).
Fixpoint words_from (level : nat) (l : list Mask) : Prop :=
  match l with
  | [] => True
  | m :: l => word_wf level m /\ words_from (S level) l
  end.
Definition words_wf (l : list Mask) : Prop := length l = BITS /\ words_from 0 l.

Section L.
Context (alpha : list bool) (beta_inner : list (list (F Pi))) (beta_leaf : list (F Pl)) (ctx nonce : bytes).

(** The child on the path of a node with a seed and a control bit: seed before
    conversion, and control bit. *)
Definition on_path (bit : bool) (s : bytes * bytes) (t : bool * bool) (ctrl : bool) (cw : bytes * (bool * bool))
  : bytes * bool :=
  if ctrl then (xor (pick bit s) (fst cw), xorb (pick bit t) (pick bit (snd cw))) else (pick bit s, pick bit t).

(** Aggregator [j] (false: 0, true: 1) knows its own expansion of the node; for
    what the other key expands to, take the mask. *)
Definition ideal_level (j : bool) (level : nat) (seed : bytes) (ctrl : bool) (m : Mask)
  : res (bytes * bool * CorrectionWord i) :=
  let '(ms, mt, mw) := m in
  let bit := nth level alpha false in
  let* (s, t) := extend i level seed ctx nonce in
  let seed_cw := xor (pick (negb bit) s) ms in
  let ctrl_cw := (xorb (xorb (fst t) (fst mt)) (negb bit), xorb (xorb (snd t) (snd mt)) bit) in
  let '(x, ctrl') := on_path bit s t ctrl (seed_cw, ctrl_cw) in
  let* (seed', w) := convert i level x ctx nonce in
  let '(w0, w1) := if j then (mw, w) else (w, mw) in
  let* d := fv_sub (beta_at i beta_inner beta_leaf level) w0 in
  let* d := fv_add d w1 in
  let ctrl1 := if j then ctrl' else negb ctrl' in
  Ok (seed', ctrl', (seed_cw, ctrl_cw, if ctrl1 then fv_neg d else d)).
Fixpoint ideal_from (j : bool) (level : nat) (seed : bytes) (ctrl : bool) (masks : list Mask)
  : res (list (CorrectionWord i)) :=
  match masks with
  | [] => Ok []
  | m :: masks =>
    let* (seed', ctrl', cw) := ideal_level j level seed ctrl m in
    let* rest := ideal_from j (S level) seed' ctrl' masks in
    Ok (cw :: rest)
  end.

(** The public share, from the key of Aggregator [j] and one mask per level. *)
Definition ideal_share (j : bool) (key : bytes) (masks : list Mask) : res (list (CorrectionWord i)) :=
  ideal_from j 0 key j masks.

(** What the XOFs yield for a key along the path to [alpha]. *)
Fixpoint expand_from (level : nat) (seed : bytes) (ctrl : bool) (ps : list (CorrectionWord i)) : res (list Mask) :=
  match ps with
  | [] => Ok []
  | cw :: ps =>
    let bit := nth level alpha false in
    let* (s, t) := extend i level seed ctx nonce in
    let '(x, ctrl') := on_path bit s t ctrl (fst cw) in
    let* (seed', w) := convert i level x ctx nonce in
    let* rest := expand_from (S level) seed' ctrl' ps in
    Ok ((pick (negb bit) s, t, w) :: rest)
  end.
Definition expand (j : bool) (key : bytes) (ps : list (CorrectionWord i)) : res (list Mask) := expand_from 0 key j ps.
End L.
End V.
