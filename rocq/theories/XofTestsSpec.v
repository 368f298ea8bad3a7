(** Vocabulary for the theorems on the XOF tests and the remaining generators of test
    vectors.  Nothing here models a /repo function. *)
From Coq Require Import Strings.String Strings.Ascii Decimal DecimalString.
From Verif Require Export XofTests XofSpec IdpfSpec.
Open Scope nat_scope.

(** The XOF's output for these arguments is the stream [s]: whatever the lengths of
    the calls of next(), their outputs concatenated are the first bytes of [s]. *)
Definition outputs (X : XofClass) (lim : Z) (seed dst binder : bytes) (s : nat -> byte) : Prop :=
  exists st, xof_init X seed dst binder = Ok st /\
  forall lens, (Z.of_nat (list_sum lens) < lim)%Z ->
    exists bs st', next_calls X st lens = Ok (bs, st') /\ concat bs = stream_bytes s 0 (list_sum lens) /\
      map (@length byte) bs = lens.

(** Reading a decimal number. *)
Definition read_nat (s : string) : option Z :=
  option_map (fun d => Z.of_N (N.of_uint d)) (NilZero.uint_of_string s).

(** The text made of some lines. *)
Fixpoint unlines (l : list string) : string :=
  match l with
  | [] => EmptyString
  | x :: l => (x ++ String (ascii_of_nat 10) (unlines l))%string
  end.

(** [s] without its first [n] characters. *)
Fixpoint drop (n : nat) (s : string) : string :=
  match n, s with
  | S n, String _ s => drop n s
  | _, _ => s
  end.

(** A XOF that forgets how much it has produced: each call of next() starts again
    from the beginning of the stream. *)
Definition ForgetfulXof (bound : nat) : XofClass :=
  {| SEED_SIZE := 1; xof_state := unit; xof_init := fun _ _ _ => Ok tt;
     xof_next := fun st n => Ok (stream_bytes (fun i => z2b (Z.of_nat i mod 256)) 0 n, st); loop_bound := bound |}.
