(** Vocabulary for C108: the seeds and the control bits of the IDPF tree
    (draft-irtf-cfrg-vdaf.md, "IDPF from BBCGGI21").  Nothing here models a /repo
    function. *)
From Verif Require Export IdpfSpec.
Open Scope nat_scope.

(** The lowest bit of the first byte is zero. *)
Definition even_seed (s : bytes) : Prop := exists b r, s = b :: r /\ Z.even (b2z b) = true.
(** A seed with a bit put there. *)
Definition with_bit (s : bytes) (t : bool) : bytes :=
  match s with
  | [] => []
  | b :: r => z2b (b2z b + (if t then 1 else 0)) :: r
  end.
(** The XOF with this seed, the tag of the IDPF with the usage and this binder puts
    out the two strings, one after the other. *)
Definition puts_out (X : XofClass) (usage : Z) (seed ctx nonce out0 out1 : bytes) : Prop :=
  exists dst st st' st'', format_dst 1 0 usage = Ok dst /\ xof_init X seed (dst ++ ctx) nonce = Ok st /\
    xof_next X st (length out0) = Ok (out0, st') /\ xof_next X st' (length out1) = Ok (out1, st'').
