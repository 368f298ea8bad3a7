(** The check of Prio3Count, written out. Nothing here models a /repo function.

    The proof of a measurement [x] that should be 0 or 1 consists of two wire
    seeds [s0], [s1] and of three values [g0], [g1], [g2] of the gadget
    polynomial, at 1, i and -1, where i is a square root of -1. The wires are
    the lines through (1, s0), (-1, x) and through (1, s1), (-1, x). *)
From Verif Require Export CircuitSpec.
Open Scope nat_scope.

Section Count.
Context {P : NttFieldClass}.
Notation F := (F P).
Notation two := (fadd f1 f1).

(** Twice the value at [t] of the line through (1, s) and (-1, x). *)
Definition wire2 (s x t : F) : F := fadd (fmul s (fadd f1 t)) (fmul x (fsub f1 t)).

(** Four times the value at [t] of the parabola through (1, g0), (i, g1), (-1, g2). *)
Definition quad4 (g0 g1 g2 t : F) : F :=
  let i := nth_root P 2 in
  fadd (fadd (fmul g0 (fmul (fadd f1 i) (fmul (fsub t i) (fadd t f1))))
             (fmul g1 (fmul two (fsub f1 (fmul t t)))))
       (fmul g2 (fmul (fsub f1 i) (fmul (fsub t i) (fsub t f1)))).

(** The verifiers accept at test point [t] when the gadget polynomial takes the
    value x at -1, so that x^2 - x looks like zero, and equals the product of the
    wires at t. *)
Definition count_accepts (x : F) (proof : list F) (t : F) : bool :=
  feqb (nth 4 proof f0) x &&
  feqb (fmul (wire2 (nth 0 proof f0) x t) (wire2 (nth 1 proof f0) x t))
       (quad4 (nth 2 proof f0) (nth 3 proof f0) (nth 4 proof f0) t).
End Count.
