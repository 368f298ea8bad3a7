(** Model of /repo/poc/plot_prio3_multiproof_robustness.py (the formulas; not the
    plotting).  Floating-point numbers are modelled by exact rationals. *)
From Coq Require Export QArith.
From Verif Require Export FlpBBCGGI19.
Open Scope Q_scope.

(** plot_prio3_multiproof_robustness.py:18-23 [base_soundness] *)
Definition base_soundness {P : NttFieldClass} (v : Valid P) : Q :=
  fold_right Qplus 0
    (map (fun '(g, g_calls) => inject_Z (Z.of_nat (g_calls * DEGREE g)) / inject_Z (MODULUS P - Z.of_nat g_calls))
       (combine (GADGETS v) (GADGET_CALLS v))).

(** plot_prio3_multiproof_robustness.py:26-45 [robustness] *)
Definition robustness (soundness : Q) (ro_queries verify_queries num_proofs : nat) : Q :=
  inject_Z (Z.of_nat (ro_queries + verify_queries)) * soundness ^ Z.of_nat num_proofs.

(** plot_prio3_multiproof_robustness.py:54-59 [sum_vec], the soundness that is
    passed to [robustness].  There chunk_length is the square root of the length, a
    float; here it is the integer the circuit was made with. *)
Definition sum_vec_soundness {P : NttFieldClass} (v : Valid P) (chunk_length : nat) : Q :=
  inject_Z (Z.of_nat chunk_length) / inject_Z (MODULUS P) + base_soundness v.
