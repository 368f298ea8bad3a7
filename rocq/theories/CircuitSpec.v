(** What the FLP theorems assume of a validity circuit: its gadgets fit the
    field, it calls them as declared, and apart from gadget calls it is affine.
    The five circuits of Circuits.v are shown to satisfy this (CircuitProofs.v). *)
From Verif Require Export FlpBBCGGI19 Spec Roots.
Open Scope nat_scope.

(** log2 of the wire polynomial length for a number of calls. *)
Definition wlog (calls : nat) : nat := bit_length (Z.of_nat (1 + calls) - 1).
(** Length of the gadget polynomial for wire polynomials of length 2^L, and
    log2 of the least power of two that is at least that. *)
Definition glen (g : gadget) (L : nat) : nat := gadget_poly_len (DEGREE g) (2 ^ L).
Definition glog (g : gadget) (L : nat) : nat := bit_length (Z.of_nat (glen g L) - 1).

(** A gadget that can be used with wire polynomials of length 2^L: a PolyEval
    gadget was built for that length, is not constant, and its coefficients are
    in range and not all zero in the field. *)
Fixpoint gwf (P : NttFieldClass) (L : nat) (g : gadget) : Prop :=
  match g with
  | Mul => True
  | PolyEval p n =>
    n = np2 (gadget_poly_len (length p - 1) (2 ^ L)) /\ 2 <= length p /\
    Forall (fun c => - MODULUS P < c < MODULUS P)%Z p /\ ~ allzero (map fof p : list (F P))
  | ParallelSum sub count => gwf P L sub /\ 1 <= count
  end.

(** The program never fails, calls only existing gadgets, on inputs of the
    right arity, gadget [i] at most [nth i calls 0] times ([cnt] counts the calls
    made so far), and its result satisfies [post]; whatever the gadget calls
    return. *)
Fixpoint pok {P : FieldClass} {A} (gs : list gadget) (calls cnt : list nat) (post : A -> Prop) (m : prog P A)
  : Prop :=
  match m with
  | Ret a => post a
  | Fail _ => False
  | Call i inp k =>
    i < length gs /\ length inp = ARITY (nth i gs Mul) /\ nth i cnt 0 < nth i calls 0 /\
    forall y, pok gs calls (upd cnt i (S (nth i cnt 0))) post (k y)
  end.

(** [n] programs [ms 0 .. ms (n-1)] run on additive shares do the same gadget
    calls as the single program [m]: the inputs of corresponding calls add up,
    and if the answers add up then so it continues; results are related by [R]. *)
Fixpoint lin {P : FieldClass} {A B} (n : nat) (R : (nat -> A) -> B -> Prop) (ms : nat -> prog P A) (m : prog P B)
  : Prop :=
  match m with
  | Ret b => exists al, (forall s, s < n -> ms s = Ret (al s)) /\ R al b
  | Fail _ => False
  | Call i inp k =>
    exists inps ks,
      (forall s, s < n -> ms s = Call i (inps s) (ks s) /\ length (inps s) = length inp) /\
      (forall j, nth j inp f0 = fsum n (fun s => nth j (inps s) f0)) /\
      forall ys, lin n R (fun s => ks s (ys s)) (k (fsum n ys))
  end.

(** The vectors [vs 0 .. vs (n-1)] of length [len] add up to [v]. *)
Definition shares_of {P : FieldClass} (n len : nat) (vs : nat -> list (F P)) (v : list (F P)) : Prop :=
  length v = len /\ (forall s, s < n -> length (vs s) = len) /\
  forall j, nth j v f0 = fsum n (fun s => nth j (vs s) f0).

Record ValidOk {P : NttFieldClass} (v : Valid P) : Prop := {
  vo_len : length (GADGETS v) = length (GADGET_CALLS v);
  vo_gadgets : forall i, i < length (GADGETS v) ->
    let g := nth i (GADGETS v) Mul in
    let calls := nth i (GADGET_CALLS v) 0 in
    1 <= calls /\ gwf P (wlog calls) g /\ (2 ^ Z.of_nat (glog g (wlog calls)) <= GEN_ORDER P)%Z;
  vo_out : 1 <= EVAL_OUTPUT_LEN v;
  vo_calls : forall meas joint_rand n,
    length meas = vMEAS_LEN v -> length joint_rand = vJOINT_RAND_LEN v ->
    1 <= n -> (Z.of_nat n < MODULUS P)%Z ->
    pok (GADGETS v) (GADGET_CALLS v) (repeat 0 (length (GADGETS v)))
      (fun out => length out = EVAL_OUTPUT_LEN v) (valid_eval v meas joint_rand n);
  vo_lin : forall meass meas joint_rand n,
    length joint_rand = vJOINT_RAND_LEN v -> 1 <= n -> (Z.of_nat n < MODULUS P)%Z ->
    shares_of n (vMEAS_LEN v) meass meas ->
    lin n (shares_of n (EVAL_OUTPUT_LEN v))
      (fun s => valid_eval v (meass s) joint_rand n) (valid_eval v meas joint_rand 1);
}.

(** The field has enough roots of unity for [calls] calls of gadget [g]. *)
Definition fits (P : NttFieldClass) (g : gadget) (calls : nat) : Prop :=
  (Z.of_nat (np2 (gadget_poly_len (DEGREE g) (wire_poly_len calls))) <= GEN_ORDER P)%Z.
