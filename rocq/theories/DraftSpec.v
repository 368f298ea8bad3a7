(** Vocabulary for the comparison of the listings of the document with the
    reference code.  Nothing here models a /repo function. *)
From Verif Require Export Base.
From Coq Require Import Strings.String.

(** The exceptions raised by the lines of the code that the document leaves out. *)
Definition removed (e : exn) : Prop :=
  match e with
  | AssertionError => True
  | ValueError msg => In msg [
      "input length must equal the gadget arity"; "number of inputs must equal the gadget arity";
      "each input must have the same length"; "incorrect measurement length"; "incorrect joint randomness length";
      "measurement out of range"; "entry of measurement vector is out of range"; "incorrect verify_key size"]%string
  | _ => False
  end.

(** The listing does what the code does, unless the code raises an exception in a
    line that the listing does not have. *)
Definition same_unless_removed {A} (code listing : res A) : Prop :=
  code = listing \/ exists e, code = Raise e /\ removed e.
