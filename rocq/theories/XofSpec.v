(** Vocabulary for the XOF properties.  Nothing here models a /repo function. *)
From Verif Require Export Xof Spec.
Open Scope nat_scope.

(** Started in state [st], the XOF outputs the fixed byte stream [s]: after any
    [p] bytes have been read it is in state [at_ p], and reading [n] more gives
    bytes [p .. p+n-1] of [s].  [lim] bounds the number of bytes read. *)
Definition streams (X : XofClass) (lim : Z) (st : xof_state X) (s : nat -> byte)
  (at_ : nat -> xof_state X) : Prop :=
  at_ 0 = st /\
  forall p n, (Z.of_nat (p + n) < lim)%Z ->
    xof_next X (at_ p) n = Ok (stream_bytes s p n, at_ (p + n)).

(** What the protocols assume of a XOF class: instances can be constructed from
    seeds of the right size and short enough tags, and are streams. *)
Record XofOk (X : XofClass) (lim : Z) : Prop := {
  xo_init : forall seed dst binder, length seed = SEED_SIZE X ->
    (Z.of_nat (length dst) < 65536)%Z -> exists st, xof_init X seed dst binder = Ok st;
  xo_stream : forall seed dst binder st, xof_init X seed dst binder = Ok st ->
    exists s at_, streams X lim st s at_;
}.

(** The least [k] with [2^k >= MODULUS]. *)
Definition bits_of (P : FieldClass) : Z := Z.log2_up (MODULUS P).

(** [chunk P s p k]: the [k]-th chunk of ENCODED_SIZE bytes of the stream after
    position [p], as a number, reduced to [bits_of P] bits. *)
Definition chunk_value (P : FieldClass) (b : bytes) : Z := (from_le_bytes b mod 2 ^ bits_of P)%Z.
Definition chunk (P : FieldClass) (s : nat -> byte) (p k : nat) : Z :=
  chunk_value P (stream_bytes s (p + k * ENCODED_SIZE P) (ENCODED_SIZE P)).
(** The chunks among the first [k] that are below the modulus, in order. *)
Definition accepted (P : FieldClass) (s : nat -> byte) (p k : nat) : list Z :=
  filter (fun x => (x <? MODULUS P)%Z) (map (chunk P s p) (seq 0 k)).

(** A XOF reading from a given byte string (used to count random tapes). *)
Definition TapeXof (bound : nat) : XofClass :=
  {| SEED_SIZE := 0; xof_state := bytes;
     xof_init := fun seed _ _ => Ok seed;
     xof_next := fun tape n => if n <=? length tape then Ok (firstn n tape, skipn n tape)
                               else Raise IndexError;
     loop_bound := bound |}.

(** The same XOF with another bound on the sampling loop. *)
Definition with_bound (X : XofClass) (bound : nat) : XofClass :=
  {| SEED_SIZE := SEED_SIZE X; xof_state := xof_state X; xof_init := xof_init X;
     xof_next := xof_next X; loop_bound := bound |}.

(** A sequence of [next] calls and the concatenation of their answers. *)
Fixpoint next_calls (X : XofClass) (st : xof_state X) (lens : list nat)
  : res (list bytes * xof_state X) :=
  match lens with
  | [] => Ok ([], st)
  | n :: lens' =>
    let* (b, st) := xof_next X st n in
    let* (bs, st) := next_calls X st lens' in
    Ok (b :: bs, st)
  end.

(** Sequences of bytes of a given length, as an unordered finite set. *)
Definition enumerates {A} (L : list A) (Q : A -> Prop) : Prop :=
  NoDup L /\ forall x, In x L <-> Q x.
