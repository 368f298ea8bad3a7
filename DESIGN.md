# Formal model of cfrg/draft-irtf-cfrg-vdaf in Rocq/Coq 8.16.1

The Python reference code of the draft (`/repo/poc`) is modelled function by
function in Gallina; the properties of `properties.jsonl` are theorems about that
model. `MANIFEST.json` maps each property to its theorems.

## Trusted base

* Coq's kernel (8.16.1; `vm_compute` is used in proofs, so its virtual machine is
  included) and the standard library modules List, ZArith, NArith, Byte, String,
  Ascii, Bool, Lia, Ring, Field, Permutation, Sorted, Znumtheory,
  QArith, Lqa. No other library,
  no plugin.
* Some Examples are about a definition `..._outcome := Eval vm_compute in (...)`:
  the value is computed when the file is compiled (by the same virtual machine) and
  the Example states it. `coqchk` does not repeat that evaluation, which would take
  it too long; no theorem depends on such a definition.
* **Print Assumptions prints "Closed under the global context" for every theorem**
  (each Props_*.v file runs it after each theorem): no axiom of the standard
  library is used (no functional or propositional extensionality, no classical
  logic, no proof irrelevance: canonicity proofs in field elements are equalities
  of booleans, for which uniqueness is a theorem), and none is added. There are no
  functors, module types, section-less variables or admitted proofs.
* That the Gallina text is a faithful transcription of the Python text. Each
  definition cites the lines it models; simplifications are noted there. As a test
  of fidelity, the model is run on the published test vectors (below).
* That the theorem statements and the vocabulary in the `*Spec.v` files say what
  the English properties say.

## What is modelled

Python values: `bytes` = `list Byte.byte`, ints = `Z`, lengths and indices = `nat`,
exceptions as values (`res A := Ok a | Raise e` with the exception class and, for
ValueError, the message). `for` loops are folds over index lists; the only
unbounded loop (`Xof.next_vec`, rejection sampling) has a bound on the number of
iterations as a parameter and returns `Raise OutOfFuel` when it is exceeded, i.e.
`OutOfFuel` stands for "no result yet"; C18_bound_irrelevant shows results do not
depend on the bound. Random choices (`gen_rand`, `rand_vec`) are arguments.

| Python | model | parts |
|---|---|---|
| vdaf_poc/common.py | Base.v, Common.v | everything but `gen_rand` (`print_wrapped_line` in XofTests.v) |
| vdaf_poc/field.py | Field.v, Poly.v | everything but `rand_vec`, `__str__`, `__repr__`; the sage-derived test data |
| vdaf_poc/flp.py | Flp.v | the interface, `additive_secret_share`, `run_flp` |
| vdaf_poc/flp_bbcggi19.py | FlpBBCGGI19.v, Circuits.v | gadgets Mul, PolyEval, ParallelSum, ProveGadget, QueryGadget; prove, query, decide; Count, Sum, SumVec, Histogram, MultihotCountVec; range-checked integers |
| vdaf_poc/xof.py | Xof.v | Xof, XofTurboShake128, XofFixedKeyAes128; the TurboSHAKE128 and AES-128 primitives are parameters (any functions) |
| vdaf_poc/vdaf.py | Vdaf.v | interface as a record, domain_separation_tag, run_vdaf |
| vdaf_poc/vdaf_prio3.py | Prio3.v | everything, all six variants |
| vdaf_poc/idpf.py, idpf_bbcggi21.py | Idpf.v | everything |
| vdaf_poc/vdaf_poplar1.py | Poplar1.v | everything |
| vdaf_poc/vdaf_ping_pong.py | PingPong.v | everything |
| vdaf_poc/daf.py | Daf.v | interface as a record, run_daf |
| example_flp_shamir.py | Shamir.v, ShamirTests.v | shamir_shard, shamir_unshard; TestShamir |
| plot_prio3_multiproof_robustness.py | Plot.v | base_soundness, robustness (exact rationals for floats) |
| tests/test_flp.py, test_flp_bbcggi19.py, test_vdaf_prio3.py, test_daf.py | TestCircuits.v | FlpTest, MultiGadget, HigherDegree, TestAverage, Prio3Average, Prio3HigherDegree, Prio3FlpTest, TestDaf |
| vdaf_poc/test_utils.py, tests/test_test_vectors.py | TestVectors.v | test_vec_gen_rand, gen_test_vec_for_vdaf (the vector as a value; no JSON), check_test_vector |
| tests/test_vdaf_ping_pong.py | TestPingPong.v | PingPongTester, test_multi_round |
| gen_test_vec.py | NegVectors.v | gen_prio3_negative_test_vec, _prio3_verifier_shares_to_message_failure, gen_poplar1_negative_test_vec |
| tests/test_field.py | FieldTests.v | TestFields, TestPolynomials (the drawn values are arguments) |
| tests/test_idpf_bbcggi21.py | IdpfTests.v | TestIdpfBBCGGI21, bytes_to_bit_string, int_to_bit_string |
| vdaf_poc/test_utils.py, tests/test_vdaf_prio3.py, test_vdaf_poplar1.py, test_daf.py | VdafTests.v | run_vdaf_test, run_daf_test and all tests of the three files |
| vdaf_poc/test_utils.py, tests/test_flp_bbcggi19.py, test_flp.py | FlpTests.v | run_gadget_test, run_flp_test, run_encode_truncate_decode_test and all tests of the two files |
| tests/test_xof.py, test_common.py, gen_test_vec.py | XofTests.v | all tests of the two files, gen_test_vec_for_xof, gen_test_vec_for_idpf, print_wrapped_line (the printed lines as a list) |
| gen_test_vec.py, vdaf_poc/test_utils.py, tests/test_test_vectors.py, test_vec_set_type_param of each VDAF | GenMain.v | main (files as values), pretty_print_vdaf_test_vec, the constructors called by the tests of the test vectors |
| draft-irtf-cfrg-vdaf.md (Python listings) | Draft.v | the XOFs, gadgets, circuits, FLP and run_vdaf as listed, where the listing differs from the code |
| draft-irtf-cfrg-vdaf.md:4741-4786 (heavy hitters protocol) | HeavyHitters.v | the Collector's loop over the levels, given the answers to its queries |
| draft-irtf-cfrg-vdaf.md:2029-2050 (star topology) | Star.v | verification by a Leader and any number of Helpers who exchange encoded messages |
| draft-irtf-cfrg-vdaf.md (message structures) | Wire.v | the structures in the presentation language of TLS (WireSpec.v) |

Not modelled: writing and reading JSON text (a file is a value), creating
directories, the prose of the draft. The
Python-level type discipline (mypy) is taken for granted: arguments have the
annotated types. Side channels, time and memory use, and object identity (the
in-place updates of the code are modelled by returned values) are out of scope.

Validity circuits are programs with gadget calls (a free monad `Ret | Fail | Call`)
interpreted by the plain, ProveGadget and QueryGadget handlers, as the Python code
swaps the gadget objects. Abstract classes are records; theorems about Prio3 hold
for any FLP satisfying `FlpOk` (Prio3Spec.v), which is proved for FlpBBCGGI19 over
any circuit satisfying `ValidOk` (FlpSpec.v), which is proved for the five circuits.

TurboShake.v and Aes128.v implement the two primitives; they are used only to run
the test vectors.

## Properties and proof methods

| ids | theorems in | method |
|---|---|---|
| C01, C05, C13, C16 | Props_Codec.v | induction on lengths; injectivity of the tag format |
| C02-C04 | Props_Codec.v, Props_Field.v | codecs; ring theory, Fermat; Pocklington certificates for the four moduli |
| C06-C12 | Props_Field.v, Props_Poly.v | NTT stage invariant; Lagrange interpolation; root counting; Newton interpolation |
| C14, C20-C27 | Props_Flp.v | logical relation shares/whole over circuit programs; polynomial identities; counting of roots (soundness) |
| C15, C17-C19 | Props_Xof.v | injective framing; stream slices; filter characterisation and counting of rejection sampling |
| C28-C33, C48-C50, C56 | Props_Prio3.v, Props_Run.v | generic in the FLP and XOF, then instantiated for the six variants |
| C34-C36 | Props_Idpf.v | invariant of seeds and control bits on and off the path |
| C37-C42, C52-C54 | Props_Poplar1.v | algebraic identity of the sketch, counting for soundness, induction on histories, codecs |
| C43-C46 | Props_PingPong.v | simulation with direct execution, induction on rounds; fail-safety for arbitrary peers |
| C47, C55 | Props_Run.v | decomposition of run_daf and run_vdaf into per-report verification and folds |
| C51, C57 | Props_Shamir.v | interpolation at zero; bijection of the coefficients |
| C58-C60 | Props_Oracle.v | two oracles that agree on the tagged messages give the same results (non-interference); injectivity of messages |
| C61, C62 | Props_Deploy.v | deployment over byte strings; robustness against arbitrary uploads |
| C63, C64 | Props_Zk.v | simulators; bijections of the random choices |
| C65 | Props_ShamirFlp.v | query is affine in measurement and proof; interpolation at zero |
| C66 | Props_Plot.v | C26 and C50 in rationals; explicit attack on the estimate |
| C67 | Props_Sound.v | C23 and C26 combined by counting pairs of joint and query randomness, proof by proof |
| C68 | Props_Robust1.v | Poplar1 deployment with arbitrary uploads |
| C69, C70 | Props_Tests.v | the generic theorems about circuits, Prio3 and DAFs instantiated for those of the test suite |
| C71, C72 | Props_TestVec.v | operation-by-operation characterisation of the checker; loop invariants over rounds |
| C73-C75 | Props_View.v | the code computes an ideal experiment with the other party's XOF outputs as masks; bijections of the masks |
| C76-C78 | Props_Neg.v, Props_Edits.v | exact error terms of the sketch and of the Count proof; the negative vectors of gen_test_vec.py, reproduced in TestVec_Neg.v; what they record (Props_Edits.v) |
| C79-C80 | Props_Units.v | when the unit tests of fields, polynomials and the IDPF pass, for all draws |
| C81-C82 | Props_UnitsVdaf.v | when the unit tests of Prio3, Poplar1 and the DAF pass, for all draws |
| C83 | Props_UnitsFlp.v | when the unit tests of the FLPs pass, for all draws |
| C84 | Props_UnitsXof.v | tests of the XOFs; test vectors of XOFs and IDPFs; wrapped lines (TestVec_Rejection.v runs the rejection-sampling test with the concrete TurboSHAKE128) |
| C85 | Props_Main.v | the program that writes the test vectors; the tests construct the right VDAF from a file; what is printed |
| C86 | Props_Draft.v | the listings of the document compute what the code computes, except where they leave out checks |
| C87 | Props_Heavy.v | the heavy hitters protocol returns the strings held by at least T clients, also under attack |
| C88 | Props_Collect.v | Prio3: the aggregate shares are determined by the aggregate result and the Helpers' seeds |
| C89 | Props_Wire.v | encoders and decoders follow the message structures of the document |
| C90 | Props_ShamirTests.v | when the unit tests of the Shamir example pass |
| C91 | Props_Tables.v | parameters and constants of the tables of the document; the range of PROOFS |
| C92 | Props_Chunk.v | proof length by chunk length; the square root is within 50% of the best |
| C93 | Props_Limits.v | a Client knowing the verification key forges any result; a malicious Aggregator shifts it |
| C94 | Props_Reuse.v | verifying a report more than once reveals the measurement (Prio3, Poplar1) |
| C95 | Props_Confuse.v | Clients and Aggregators with different parameters of SumVec or Sum: accepted, misread |
| C96 | Props_Votes.v | a Client of Poplar1 can vote at some levels and not at others |
| C97 | Props_Votes.v | the steering attack on the heavy hitters protocol |
| C98 | Props_Tamper.v | changing the public share of Poplar1: malleability, and what acceptance then reveals |
| C99 | Props_Offline.v | arbitrary vectors with honest proofs: the outcome known offline, lucky joint randomness |
| C100 | Props_Guard.v | the refused test points are those at which the verifier shares would show the inputs of a call |
| C101 | Props_Star.v | the star topology computes what direct verification computes, with any number of Aggregators |
| C102 | Props_Leak.v | the heavy hitters protocol reveals exactly the counts of the prefix tree |
| C103 | Props_Batch.v | a coalition of all Aggregators of Prio3 but one and the Collector learns the sum of a batch and nothing else |
| C104 | Props_P1Batch.v | one Aggregator of Poplar1 and the Collector learn the answers about a batch and nothing else |
| C105 | Props_TwoRand.v | a public share changed on the way to the Helpers makes Prio3 reveal linear equations in the measurement |
| C106 | Props_Extract.v | the values of an IDPF for arbitrary keys and public shares; a payload chooses one value per level and no second; when a report counts for two prefixes |
| C107 | Props_Sybil.v | the result and all measurements of a batch but one determine that one |
| C108 | Props_Node.v | the IDPF's node expansion: nothing lost, no control bit left in a seed or in a correction word |

Probabilities are stated by counting: soundness bounds the number of accepted
choices of randomness, uniformity and privacy statements are bijections ("exactly
one choice of randomness").

Each Props file also contains Examples that show that the hypotheses of its
theorems are met by concrete objects. Where the faithful model falsifies the naive
form of a property, the property is worded as the exact truth and a `_refuted`
theorem gives the witness.

## Test vectors

TestVec_*.v replay vectors from /repo/test_vec through the model with concrete
TurboSHAKE128 and AES-128, comparing every intermediate message bytewise: both XOFs,
the IDPF, Prio3Count_0-2 and its manipulated reports, Prio3Sum_0-1,
Prio3Histogram_0-1 and its manipulated reports and message,
Prio3MultihotCountVec_0, Prio3HigherDegree_0, Poplar1_0-5 and its manipulated
report (generators: tools/gen_test_vectors.py, gen_more_vectors.py, gen_negative_vectors.py). The
other vectors of /repo/test_vec/vdaf were replayed the same way outside the build,
because they take minutes to an hour each, and all agreed: Prio3Sum_2, SumVec_0-1,
SumVecWithMultiproof_0-1, Histogram_2, MultihotCountVec_1-2.

## Testing the theorems against wrong programs

`seeded/LOG.jsonl` records seeded faults: a model definition is edited the way a bug
would change the program, everything that depends on it is rebuilt in a scratch
copy, proofs that break are replaced by a marker axiom, and `Print Assumptions`
then tells which theorems lost their proof. Where
the theorem for the claim was still proved it was strengthened or supplemented; the line
then names the tightened theorems. A theorem counts as failed when it rests on a
lemma whose proof broke.
This over-approximates: a broken proof does not show that the theorem has become
false, so whether the edit contradicts the claim was judged by hand. Edits that no
theorem of the claim caught, and attempts that were inconclusive because the
theorem files could not be built with the edit, are logged too; their `note` says
so, and where a later theorem catches the same edit there is a second line.

## Discrepancies found in the code

1. `poly_eval` raises IndexError on a non-empty all-zero coefficient list
   (field.py: 257-268): poly_strip returns `[]` and `p[-1]` fails.
2. `Histogram.encode` accepts negative measurements -length..-1 through Python
   negative indexing (flp_bbcggi19.py: 731-734).
3. `Sum.encode` accepts every negative integer and silently encodes another
   value (flp_bbcggi19.py: 1109-1114, 1163-1184).
4. `Prio3.decode_public_share` returns None without looking at the bytes when no
   joint randomness is used: any string decodes (vdaf_prio3.py: 574-576).
5. `Prio3.verifier_shares_to_message` does not check the number of shares; the
   empty list is accepted by Prio3Count (vdaf_prio3.py: 187-215).
6. `Prio3.__init__` does not check `num_proofs`; with 0 proofs everything is
   accepted (vdaf_prio3.py: 67-87).
7. `Poplar1.encode_agg_param` accepts prefixes whose bit length is not level+1
   as long as the byte count matches (vdaf_poplar1.py: 426-450).
8. `shamir_unshard` raises IndexError when the interpolated polynomial is zero
   with two or more shares (example_flp_shamir.py: 82-83).
9. `unpack_bits(b"", 0)` raises IndexError although `pack_bits([])` succeeds
   (idpf_bbcggi21.py: 356-385).
10. Poplar1 with BITS > 2^16 can be constructed, but verify_init fails at every
    level >= 2^16, because the level is encoded in two bytes (vdaf_poplar1.py).
11. `Poplar1.is_valid` with a negative previous level slices from the end and can
    accept a parameter that does not refine the previous one.
12. `base_soundness` in plot_prio3_multiproof_robustness.py (18-23) uses the number
    of gadget calls, but the wire polynomials are padded to a power of two, so the
    value is not a bound: C66_refuted gives an invalid SumVec measurement with a
    proof that 6 query values accept where the estimate allows 4.
13. `check_test_vector` (test_test_vectors.py) does not compare the number of
    aggregate shares with SHARES, and ignores additional entries of
    `verifier_shares`, `verifier_messages` and `out_shares`.
14. `test_multi_round` passes `agg_param` and `ctx` in the wrong order to
    `ping_pong_helper_continued` and `ping_pong_leader_continued`
    (test_vdaf_ping_pong.py: 267-282); its VDAF ignores both.
