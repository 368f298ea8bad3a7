(** The presentation language of TLS (RFC 8446, Section 3), in which the document
    describes messages, and the messages as values of that language.  Nothing here
    models a /repo function. *)
From Verif Require Export Prio3 Prio3Spec Poplar1 Poplar1Spec Idpf IdpfSpec PingPong PingPongSpec.
Open Scope nat_scope.

(** ** Types and values *)
Inductive wty :=
| Wuint (n : nat)                      (* an unsigned integer of n bytes *)
| Wopaque (n : nat)                    (* opaque x[n] *)
| Wvar (n : nat)                       (* opaque x<0..256^n - 1> *)
| Wvec (t : wty) (n : nat)             (* T x[n]; n is the size in bytes *)
| Wstruct (fields : list wty)
| Wselect (cases : list (Z * wty)).    (* an enum of one byte, and the case it selects *)

Inductive wval :=
| Vint (z : Z)
| Vbytes (b : bytes)
| Vseq (l : list wval)
| Vcase (tag : Z) (v : wval).

(** The digits of a number in base 256, lowest first. *)
Definition digits (n : nat) (z : Z) : bytes := map (fun i => z2b (z / 256 ^ Z.of_nat i mod 256)) (seq 0 n).

Fixpoint cat (l : list (option bytes)) : option bytes :=
  match l with
  | [] => Some []
  | Some a :: l => match cat l with Some b => Some (a ++ b) | None => None end
  | None :: _ => None
  end.

(** The encoding of a value of a type; None if it is not of that type. *)
Fixpoint wire (t : wty) (v : wval) : option bytes :=
  match t, v with
  | Wuint n, Vint z => if (0 <=? z)%Z && (z <? 256 ^ Z.of_nat n)%Z then Some (rev (digits n z)) else None
  | Wopaque n, Vbytes b => if length b =? n then Some b else None
  | Wvar n, Vbytes b =>
    if (Z.of_nat (length b) <? 256 ^ Z.of_nat n)%Z then Some (rev (digits n (Z.of_nat (length b))) ++ b) else None
  | Wvec t n, Vseq vs =>
    match cat (map (wire t) vs) with
    | Some b => if length b =? n then Some b else None
    | None => None
    end
  | Wstruct fields, Vseq vs =>
    (fix go fields vs :=
       match fields, vs with
       | [], [] => Some []
       | t :: fields, v :: vs =>
         match wire t v, go fields vs with Some a, Some b => Some (a ++ b) | _, _ => None end
       | _, _ => None
       end) fields vs
  | Wselect cases, Vcase tag v =>
    (fix go cases :=
       match cases with
       | [] => None
       | (k, t) :: cases =>
         if (k =? tag)%Z then match wire t v with Some b => Some (rev (digits 1 tag) ++ b) | None => None end
         else go cases
       end) cases
  | _, _ => None
  end.

(** ** Writing and reading messages *)
(** [enc] writes the messages satisfying [W] as values of type [t]. *)
Definition writes {A} (W : A -> Prop) (enc : A -> res bytes) (t : wty) (view : A -> wval) : Prop :=
  forall x, W x -> exists b, enc x = Ok b /\ wire t (view x) = Some b.
(** Among the messages satisfying [W], [dec] reads a string as the one it encodes. *)
Definition reads {A} (W : A -> Prop) (dec : bytes -> res A) (t : wty) (view : A -> wval) : Prop :=
  forall b x, W x -> (dec b = Ok x <-> wire t (view x) = Some b).
(** [dec] returns only messages satisfying [W]. *)
Definition only {A} (W : A -> Prop) (dec : bytes -> res A) : Prop := forall b x, dec b = Ok x -> W x.

(** ** The messages as values *)
(** Field elements are encoded in little-endian byte order (document, 3417-3422). *)
Definition elem_val {P} (x : F P) : wval := Vbytes (digits (ENCODED_SIZE P) (fint x)).
Definition vec_val {P} (l : list (F P)) : wval := Vseq (map elem_val l).

Definition p3_public_val (s : option (list bytes)) : wval :=
  match s with Some parts => Vseq [Vseq (map Vbytes parts)] | None => Vseq [] end.
Definition p3_input_val {P} (s : Prio3InputShare P) : wval :=
  let inner := match s with Leader meas proofs _ => Vseq [vec_val meas; vec_val proofs] | Helper share _ => Vseq [Vbytes share] end in
  match s with Leader _ _ (Some blind) | Helper _ (Some blind) => Vseq [inner; Vbytes blind] | _ => inner end.
Definition p3_verifier_val {P} (s : list (F P) * option bytes) : wval :=
  match s with (v, Some part) => Vseq [vec_val v; Vbytes part] | (v, None) => Vseq [vec_val v] end.
Definition p3_message_val (m : option bytes) : wval := match m with Some seed => Vseq [Vbytes seed] | None => Vseq [] end.
Definition p3_message_wf (p : Prio3) (m : option bytes) : Prop := blind_wf p m.

(** Eight bits to a byte, starting from the least significant bit. *)
Definition lsb_packed (bits : list bool) : bytes :=
  map (fun k => z2b (fold_right Z.add 0%Z (map (fun j => if nth (8 * k + j) bits false then 2 ^ Z.of_nat j else 0)%Z (seq 0 8))))
      (seq 0 ((length bits + 7) / 8)).
(** Eight bits to a byte, starting from the most significant bit. *)
Definition msb_packed (bits : list bool) : bytes :=
  map (fun k => z2b (fold_right Z.add 0%Z (map (fun j => if nth (8 * k + j) bits false then 2 ^ (7 - Z.of_nat j) else 0)%Z (seq 0 8))))
      (seq 0 ((length bits + 7) / 8)).

Definition p1_public_val {i : Idpf} (ps : list (CorrectionWord i)) : wval :=
  Vseq [Vbytes (lsb_packed (flat_map (fun cw => [fst (snd (fst cw)); snd (snd (fst cw))]) ps));
        Vbytes (flat_map (fun cw => fst (fst cw)) ps);
        Vseq (flat_map (fun cw => match snd cw with Inner l => map elem_val l | Leaf _ => [] end) ps);
        Vseq (flat_map (fun cw => match snd cw with Inner _ => [] | Leaf l => map elem_val l end) ps)].
Definition p1_input_val {p : Poplar1} (s : Poplar1InputShare p) : wval :=
  let '(key, seed, inner, leaf) := s in Vseq [Vbytes key; Vbytes seed; vec_val inner; vec_val leaf].
Definition fvec_val {Pi Pl} (v : FieldVec Pi Pl) : wval := match v with Inner l => Vseq [vec_val l] | Leaf l => Vseq [vec_val l] end.
(** A structure with one element. *)
Definition felem_val {Pi Pl} (v : FieldVec Pi Pl) : wval := match v with Inner l => Vseq (map elem_val l) | Leaf l => Vseq (map elem_val l) end.
Definition p1_message_val {Pi Pl} (m : option (FieldVec Pi Pl)) : wval := match m with Some v => fvec_val v | None => Vseq [] end.
Definition p1_param_val (ap : Poplar1AggParam) : wval :=
  Vseq [Vint (fst ap); Vint (Z.of_nat (length (snd ap))); Vbytes (flat_map msb_packed (snd ap))].
Definition pp_message_val (m : Z * list bytes) : wval := Vcase (fst m) (Vseq (map Vbytes (snd m))).
