{"id": "C01", "title": "Fixed-width integer codecs are exact inverses", "statement": "to_le_bytes/to_be_bytes(v, n) succeed exactly when 0 <= v < 2^(8n), return exactly n bytes, and from_le_bytes/from_be_bytes recover v; conversely every n-byte string b decodes to a value in range whose n-byte encoding is b again.", "quantifier": "every integer value, every byte length, every byte string", "why_tests_cant": "the domain is unbounded; tests sample a few widths", "anchors": ["poc/vdaf_poc/common.py: to_le_bytes, from_le_bytes, to_be_bytes, from_be_bytes"]}
{"id": "C02", "title": "Field vector codec is a canonical bijection", "statement": "decode_vec(encode_vec(v)) == v for every vector; decode_vec(b) succeeds exactly when b is the encoding of some vector (whole number of elements, every element below the modulus), and then re-encoding gives b back; otherwise ValueError.", "quantifier": "every vector of every length over Field64, Field96, Field128, Field255 and every byte string", "why_tests_cant": "2^(8n) byte strings per length", "anchors": ["poc/vdaf_poc/field.py: Field.encode_vec, Field.decode_vec"]}
{"id": "C03", "title": "Field arithmetic is arithmetic in a prime field", "statement": "The four moduli are prime; the constructor accepts exactly the integers strictly between -M and M; +,-,*,unary -,** and inv on field objects satisfy the field laws, x.inv()*x == 1 for every x != 0 and 0.inv() == 0.", "quantifier": "all elements of Field64/96/128/255 (and of any class whose modulus is prime)", "why_tests_cant": "fields have at least 2^64 elements; primality of a 255-bit modulus is not a unit-test fact", "anchors": ["poc/vdaf_poc/field.py: Field.__init__, __add__, __sub__, __neg__, __mul__, inv, __pow__, Field64, Field96, Field128, Field255"]}
{"id": "C04", "title": "nth_root(n) has order exactly 2^n", "statement": "For every n with 2^n <= GEN_ORDER, nth_root(n) is a primitive 2^n-th root of unity, nth_root(n+1)^2 == nth_root(n), and the first 2^n powers returned by nth_root_powers are pairwise distinct.", "quantifier": "every n up to log2(GEN_ORDER) (32, 64, 66) for Field64/96/128", "why_tests_cant": "tests only try n < 8", "anchors": ["poc/vdaf_poc/field.py: NttField.nth_root, nth_root_powers, gen, GEN_ORDER"]}
{"id": "C05", "title": "Power-of-two and bit-reversal helpers", "statement": "next_power_of_2(n) is the least power of two >= n; assert_power_of_2 returns log2(n) exactly on powers of two and fails otherwise; bitrev(k, .) is an involution on [0,2^k) that reverses the k-bit representation and fails outside the range.", "quantifier": "every integer n, every k", "why_tests_cant": "unbounded domain", "anchors": ["poc/vdaf_poc/common.py: assert_power_of_2, next_power_of_2, bitrev"]}
{"id": "C06", "title": "NTT evaluates the polynomial at the (shifted) roots of unity", "statement": "ntt(p, n, set_s) returns [P(s*w^i) for i < n], w the primitive n-th root, s a primitive 2n-th root with s^2 = w when set_s, else 1; it never fails on a power-of-two n <= GEN_ORDER with len(p) <= n; its only side effect on p is appending zeros up to length n.", "quantifier": "every coefficient list, every power-of-two size supported by the field, both values of set_s, every NTT field", "why_tests_cant": "unbounded sizes and coefficient values", "anchors": ["poc/vdaf_poc/field.py: NttField.ntt"]}
{"id": "C07", "title": "Inverse NTT inverts NTT in both directions", "statement": "inv_ntt(ntt(c, n), n) == c and ntt(inv_ntt(v, n), n) == v for vectors of length n.", "quantifier": "every vector, every power-of-two size", "why_tests_cant": "as above", "anchors": ["poc/vdaf_poc/field.py: NttField.inv_ntt, ntt"]}
{"id": "C08", "title": "Lagrange-basis evaluation is exact at every point", "statement": "poly_eval(p, x) / poly_eval_batched(polys, x) return the value at x of the unique polynomial of degree < n taking the given values at the n-th roots of unity, for every x including roots of unity.", "quantifier": "every batch of equally long power-of-two vectors, every x", "why_tests_cant": "infinitely many sizes; 2^64+ points", "anchors": ["poc/vdaf_poc/field.py: Lagrange.poly_eval, poly_eval_batched"]}
{"id": "C09", "title": "extend_values_to_power_of_2 extrapolates exactly", "statement": "Given the first m evaluations at n-th roots of unity of a polynomial of degree < m, the call appends exactly its remaining n-m evaluations (in place) and leaves the first m untouched.", "quantifier": "every m with 1 <= m <= n, every power of two n, every polynomial of degree < m", "why_tests_cant": "unbounded sizes", "anchors": ["poc/vdaf_poc/field.py: Lagrange.extend_values_to_power_of_2"]}
{"id": "C10", "title": "double_evaluations and Lagrange.poly_mul are exact", "statement": "double_evaluations(p) gives the 2n evaluations of the degree-<n interpolant at the 2n-th roots of unity; Lagrange.poly_mul(p,q) gives the 2n evaluations of the product polynomial.", "quantifier": "all vectors of every supported power-of-two length", "why_tests_cant": "unbounded sizes", "anchors": ["poc/vdaf_poc/field.py: Lagrange.double_evaluations, Lagrange.poly_mul"]}
{"id": "C11", "title": "Monomial-basis polynomial arithmetic", "statement": "poly_strip, poly_add, poly_mul and poly_eval implement polynomial normalisation, addition, multiplication and evaluation: evaluating the outputs at any point gives the sum/product of evaluations; results carry no leading zeros; poly_eval is expected to return a value on every polynomial.", "quantifier": "all coefficient lists and points over any field class", "why_tests_cant": "infinitely many polynomials", "anchors": ["poc/vdaf_poc/field.py: poly_strip, poly_mul, poly_add, poly_eval"]}
{"id": "C12", "title": "Newton interpolation is correct", "statement": "poly_interp(xs, ys) returns a polynomial of degree < len(xs) that takes value ys[i] at xs[i], whenever the xs are pairwise distinct; it is the only such polynomial.", "quantifier": "all lists of distinct points of every positive length, all values", "why_tests_cant": "unbounded lengths", "anchors": ["poc/vdaf_poc/field.py: poly_interp"]}
{"id": "C13", "title": "Vector helpers are componentwise and reject length mismatch", "statement": "vec_add/vec_sub/vec_neg act componentwise; vec_add and vec_sub raise ValueError exactly when lengths differ; vec_sub undoes vec_add; xor is an involution on equal-length strings.", "quantifier": "all vectors / byte strings", "why_tests_cant": "unbounded lengths", "anchors": ["poc/vdaf_poc/common.py: vec_add, vec_sub, vec_neg, xor"]}
{"id": "C14", "title": "Additive secret sharing reconstructs and any proper subset of shares is independent of the secret", "statement": "additive_secret_share(v, n) produces n vectors that sum to v; and for any choice of all shares but one, for every secret there is exactly one completing share and it is reached from exactly one choice of randomness.", "quantifier": "all vectors, every n >= 1, all randomness", "why_tests_cant": "a distribution statement over 2^64+ elements", "anchors": ["poc/vdaf_poc/flp.py: additive_secret_share"]}
{"id": "C15", "title": "TurboSHAKE XOF input framing is injective", "statement": "Two XofTurboShake128 instances absorb the same message only if seed, domain separation tag and binder all coincide; construction fails exactly when len(dst) > 65535 or len(seed) > 255. Same for the (dst, binder) key derivation of XofFixedKeyAes128.", "quantifier": "all byte strings seed, dst, binder", "why_tests_cant": "collision-freedom over all strings", "anchors": ["poc/vdaf_poc/xof.py: XofTurboShake128.__init__, XofFixedKeyAes128.__init__"]}
{"id": "C16", "title": "Domain separation tags never collide", "statement": "domain_separation_tag(usage, ctx)/format_dst values coincide only if class, algorithm id, usage and context all coincide, so no two uses of the XOF with different usage constants, VDAFs or contexts share an input; IDPF tags never equal VDAF tags.", "quantifier": "all contexts, algorithm ids in [0,2^32), usages in [0,2^16), classes in [0,2^8)", "why_tests_cant": "all pairs of strings", "anchors": ["poc/vdaf_poc/common.py: format_dst", "poc/vdaf_poc/vdaf.py: Vdaf.domain_separation_tag", "poc/vdaf_poc/idpf_bbcggi21.py: extend, convert"]}
{"id": "C17", "title": "XofFixedKeyAes128.next is a stream", "statement": "However a total of n output bytes is requested (any sequence of next() calls), the concatenated answers are the first n bytes of one fixed stream determined by (seed, dst, binder); each call returns exactly the requested length; the block hash's sigma map is injective.", "quantifier": "all call sequences and lengths, all seeds, any block cipher", "why_tests_cant": "unbounded call histories", "anchors": ["poc/vdaf_poc/xof.py: XofFixedKeyAes128.next, hash_block"]}
{"id": "C18", "title": "next_vec is unbiased rejection sampling", "statement": "Field elements returned by next_vec/expand_into_vec are exactly the masked stream chunks that are below the modulus, in order; the result has exactly the requested length; each field element has the same number of accepting chunks (so a uniform stream gives uniform elements), and no chunk above the modulus is ever used.", "quantifier": "every stream, every length, every field class used", "why_tests_cant": "requires counting 2^64..2^256 chunk values", "anchors": ["poc/vdaf_poc/xof.py: Xof.next_vec, expand_into_vec"]}
{"id": "C19", "title": "next_vec can be split and fast-forwarded", "statement": "Requesting a then b field elements yields the same elements and final stream position as requesting a+b at once; in particular discarding 3*level elements positions the stream exactly at the triple for that level.", "quantifier": "all a, b, all streams", "why_tests_cant": "unbounded histories of calls", "anchors": ["poc/vdaf_poc/xof.py: Xof.next_vec", "poc/vdaf_poc/vdaf_poplar1.py: Poplar1.verify_init (fast-forward)"]}
{"id": "C20", "title": "Range-checked integer encoding", "statement": "decode(encode(v)) == v for 0 <= v <= max; the encoding is a 0/1 vector of bit_length(max) elements; every 0/1 vector decodes to an integer in [0,max]; too-large values raise ValueError; decoding is linear in the encoded vector.", "quantifier": "all max with 2^bit_length(max) <= modulus, all values, all 0/1 vectors", "why_tests_cant": "exponentially many vectors and unbounded max", "anchors": ["poc/vdaf_poc/flp_bbcggi19.py: encode_range_checked_int, decode_range_checked_int"]}
{"id": "C21", "title": "Gadget polynomial evaluation commutes with pointwise evaluation", "statement": "For Mul, PolyEval and ParallelSum, eval_poly on wire polynomials gives the evaluations (at the larger root-of-unity set) of the composed polynomial, whose degree is at most DEGREE*(p-1); in particular its values at the wire points are the gadget's outputs.", "quantifier": "all gadgets (any nesting), all wire values, all supported sizes", "why_tests_cant": "unbounded sizes and nesting", "anchors": ["poc/vdaf_poc/flp_bbcggi19.py: Mul, PolyEval, ParallelSum, eval, eval_poly"]}
{"id": "C22", "title": "Validity circuits accept every honest measurement", "statement": "For Count, Histogram, SumVec, Sum and MultihotCountVec, encode(m) succeeds for every in-range measurement, has length MEAS_LEN, and eval(encode(m), joint_rand, 1) is all-zero for every joint randomness; out-of-range measurements are rejected by encode, with two exceptions that encode accepts: Histogram takes a negative index -length <= m < 0 as bucket length+m, and Sum reduces a negative m modulo 2^(bits-1).", "quantifier": "all parameters, all measurements, all joint randomness", "why_tests_cant": "unbounded parameters; 2^128 joint randomness values", "anchors": ["poc/vdaf_poc/flp_bbcggi19.py: Count, Histogram, MultihotCountVec, SumVec, Sum"]}
{"id": "C23", "title": "Validity circuits reject every malformed encoded measurement", "statement": "Count/Sum: eval is all-zero iff every entry is 0 or 1. Histogram/SumVec/MultihotCountVec: if the vector is not a valid encoding then at most a chunk_length/|F| fraction of joint randomness vectors makes the circuit output all zero; a valid vector truncates to an in-range aggregatable output.", "quantifier": "all vectors in F^MEAS_LEN, all parameters", "why_tests_cant": "quantifies over all malicious vectors and counts randomness", "anchors": ["poc/vdaf_poc/flp_bbcggi19.py: eval, truncate of each circuit"]}
{"id": "C24", "title": "FLP completeness", "statement": "For an encoded measurement on which the circuit is all-zero, prove() then query() on any additive sharing of measurement and proof, summing, then decide() returns True, for every prover/joint/query randomness whose test points are not roots of unity; no other error can occur.", "quantifier": "all circuits built from affine operations and gadget calls, all measurements, all randomness, every number of shares", "why_tests_cant": "unbounded circuits, share counts, randomness", "anchors": ["poc/vdaf_poc/flp_bbcggi19.py: FlpBBCGGI19.prove, query, decide", "poc/vdaf_poc/flp.py: run_flp"]}
{"id": "C25", "title": "FLP query is linear in the shares", "statement": "The component-wise sum of the verifier shares computed from shares of (measurement, proof) equals the verifier computed with num_shares=1 from the summed measurement and proof, honest or not.", "quantifier": "all measurements, all (even malformed) proofs, every number of shares invertible in the field", "why_tests_cant": "unbounded inputs", "anchors": ["poc/vdaf_poc/flp_bbcggi19.py: FlpBBCGGI19.query, QueryGadget"]}
{"id": "C26", "title": "FLP soundness", "statement": "If the circuit output on the measurement is not all-zero, then for every proof string the number of query randomness values on which decide() accepts is at most d*|F|^(QUERY_RAND_LEN-1), i.e. a d/|F| fraction, where d = max over the gadgets of DEGREE*(p-1); the same bound holds when the verifier is summed from the verifier shares of any sharing.", "quantifier": "all malicious measurements and proofs, counting over all test points", "why_tests_cant": "probability statement over 2^64+ points and adversarial proofs", "anchors": ["poc/vdaf_poc/flp_bbcggi19.py: FlpBBCGGI19.query, decide"]}
{"id": "C27", "title": "FLP lengths and test-point guard", "statement": "prove returns PROOF_LEN elements, query returns VERIFIER_LEN elements consuming exactly QUERY_RAND_LEN, PROVE_RAND_LEN and JOINT_RAND_LEN randomness; query raises ValueError exactly when some test point t satisfies t^p == 1.", "quantifier": "all circuits, inputs and randomness", "why_tests_cant": "unbounded", "anchors": ["poc/vdaf_poc/flp_bbcggi19.py: Valid.proof_len, verifier_len, prove_rand_len, query_rand_len, query"]}
{"id": "C28", "title": "Prio3 sharding reconstructs", "statement": "For every number of shares, the measurement shares (leader explicit, helpers expanded from seeds) add up to the encoded measurement and the proof shares add up to the PROOFS proofs produced from the derived prove randomness; the public share lists the joint randomness part of every Aggregator.", "quantifier": "all measurements, contexts, nonces, random strings, 2..255 shares, any XOF", "why_tests_cant": "unbounded inputs", "anchors": ["poc/vdaf_poc/vdaf_prio3.py: shard, shard_with_joint_rand, shard_without_joint_rand, expand_input_share"]}
{"id": "C29", "title": "Prio3 end-to-end correctness", "statement": "run_vdaf with any Prio3 variant on any list of valid measurements returns exactly the aggregate (count, sum, vector sum, histogram, multihot counts) modulo the field modulus -- hence the exact aggregate when it is below the modulus -- unless a derived test point is a root of unity (ValueError).", "quantifier": "all measurement lists, keys, contexts, nonces, randomness, share counts, parameters, any XOF", "why_tests_cant": "unbounded batches and parameters", "anchors": ["poc/vdaf_poc/vdaf_prio3.py: Prio3, Prio3Count, Prio3Sum, Prio3SumVec, Prio3Histogram, Prio3SumVecWithMultiproof, Prio3MultihotCountVec", "poc/vdaf_poc/vdaf.py: run_vdaf"]}
{"id": "C30", "title": "Prio3 joint randomness binding", "statement": "With joint randomness, verify_next releases an output share only if the verifier message equals the seed recomputed from the parts; when all Aggregators verify, each used the same joint randomness parts up to XOF seed-derivation collisions; tampering the public share for another Aggregator is always detected or yields a collision.", "quantifier": "all public shares, input shares, verifier messages", "why_tests_cant": "all adversarial messages", "anchors": ["poc/vdaf_poc/vdaf_prio3.py: verify_init, verify_next, verifier_shares_to_message, joint_rand_part, joint_rand_seed"]}
{"id": "C31", "title": "Prio3 message codecs round-trip and are canonical", "statement": "decode_x(encode_x(v)) == v for input shares, public shares, verifier shares, verifier messages, aggregate and output shares produced by the VDAF; every string a decoder accepts is the encoding of the value returned (so wrong lengths, trailing bytes and elements >= modulus are rejected), except that without joint randomness decode_public_share ignores its input, and that share decoders do not fix the number of elements.", "quantifier": "all values and all byte strings, with and without joint randomness", "why_tests_cant": "all byte strings", "anchors": ["poc/vdaf_poc/vdaf_prio3.py: encode_*/decode_*"]}
{"id": "C32", "title": "Prio3 input shares are single-use", "statement": "is_valid accepts an aggregation parameter iff there was no previous one: no history of two or more uses of an input share is ever admitted.", "quantifier": "all histories", "why_tests_cant": "unbounded histories", "anchors": ["poc/vdaf_poc/vdaf_prio3.py: is_valid"]}
{"id": "C33", "title": "Aggregation is order- and partition-independent", "statement": "Accumulating output shares with agg_update in any order, in any partition into batches merged with merge, and unsharding, gives the same aggregate share/result; merge of one-per-aggregator shares followed by decode equals decode of the total.", "quantifier": "all finite histories of agg_init/agg_update/merge of Prio3", "why_tests_cant": "all schedules", "anchors": ["poc/vdaf_poc/vdaf_prio3.py: agg_init, agg_update, merge, unshard"]}
{"id": "C34", "title": "IDPF correctness", "statement": "For keys generated by gen for (alpha, beta), the two eval outputs at any level and any candidate prefix sum to beta_inner[level]/beta_leaf when the prefix is the prefix of alpha, and to the zero vector otherwise; eval never fails on well-formed requests.", "quantifier": "all alpha, betas, BITS, VALUE_LEN, levels, prefix sets, contexts, nonces, randomness, any underlying XOFs", "why_tests_cant": "2^BITS prefixes, unbounded BITS", "anchors": ["poc/vdaf_poc/idpf_bbcggi21.py: gen, eval, eval_next, extend, convert"]}
{"id": "C35", "title": "IDPF eval argument checking and prefix-independence", "statement": "eval raises ValueError exactly for bad aggregator ids, levels, duplicated prefixes or wrong prefix lengths; otherwise the answer for a prefix does not depend on the other prefixes or their order.", "quantifier": "all prefix lists", "why_tests_cant": "all lists", "anchors": ["poc/vdaf_poc/idpf_bbcggi21.py: eval"]}
{"id": "C36", "title": "IDPF public share codec", "statement": "encode/decode_public_share are mutually inverse, and so are pack_bits/unpack_bits on non-empty lists (the empty list packs to the empty string, on which unpack_bits raises IndexError); decoding rejects trailing bytes, nonzero padding bits and non-canonical field elements.", "quantifier": "all BITS >= 1, all public shares, all byte strings", "why_tests_cant": "all byte strings", "anchors": ["poc/vdaf_poc/idpf_bbcggi21.py: pack_bits, unpack_bits, encode_public_share, decode_public_share"]}
{"id": "C37", "title": "Poplar1 end-to-end correctness", "statement": "run_vdaf with Poplar1 on any list of BITS-bit measurements and any duplicate-free list of prefixes at a level below 2^16 returns, for each prefix, the number of measurements having that prefix (mod the field modulus, hence exact below it); no honest run is rejected. (At levels from 2^16 on, which BITS does not exclude, verify_init always fails.)", "quantifier": "all measurement lists, levels, prefix sets, keys, contexts, randomness, any XOFs", "why_tests_cant": "unbounded", "anchors": ["poc/vdaf_poc/vdaf_poplar1.py: shard, verify_init, verify_next, verifier_shares_to_message, unshard", "poc/vdaf_poc/vdaf.py: run_vdaf"]}
{"id": "C38", "title": "Poplar1 sketch soundness", "statement": "Two honest Aggregators process arbitrary public and input shares: the output shares do not depend on the verification key, and if they sum to neither zero nor a one-hot vector with value one, then whatever the authenticator values and correlated randomness are, at most a 2/|F| fraction of verification randomness vectors lets the two rounds succeed.", "quantifier": "all adversarial data/auth vectors and correlation values; counting over all verification randomness", "why_tests_cant": "probability over 2^64 or 2^255 elements", "anchors": ["poc/vdaf_poc/vdaf_poplar1.py: verify_init, verify_next, verifier_shares_to_message"]}
{"id": "C39", "title": "Poplar1 aggregation-parameter histories", "statement": "Any history of aggregation parameters (with non-negative levels, as the encoding enforces) admitted by is_valid has strictly increasing levels, each prefix list strictly sorted (hence unique), and every prefix extends a prefix of every earlier parameter in the history; so an input share is used at most BITS times.", "quantifier": "all histories of any length", "why_tests_cant": "unbounded histories; is_valid only looks at the last element", "anchors": ["poc/vdaf_poc/vdaf_poplar1.py: is_valid, get_ancestor"]}
{"id": "C40", "title": "Poplar1 aggregation-parameter codec", "statement": "decode_agg_param(encode_agg_param(p)) == p for well-formed p (every prefix has level+1 bits); decode accepts exactly the canonical encodings (re-encoding gives the same bytes) and rejects trailing bytes/bits.", "quantifier": "all levels < 2^16, all prefix lists, all byte strings", "why_tests_cant": "all byte strings", "anchors": ["poc/vdaf_poc/vdaf_poplar1.py: encode_agg_param, decode_agg_param"]}
{"id": "C41", "title": "Poplar1 verification state machine", "statement": "verify_next accepts a 3-element sketch only in the first round and None only in the second, rejects everything else; verifier_shares_to_message requires exactly two shares and returns success in round two only when the shares sum to zero; output shares are released only after both rounds.", "quantifier": "all states, all messages", "why_tests_cant": "all adversarial messages", "anchors": ["poc/vdaf_poc/vdaf_poplar1.py: verify_next, verifier_shares_to_message"]}
{"id": "C42", "title": "Poplar1 message codecs", "statement": "encode/decode of input shares, public shares, verifier shares, verifier messages, aggregate and output shares are mutually inverse on values of the right shape, and decoders reject non-canonical strings (the decoders of aggregate, output and verifier shares do not fix the number of elements).", "quantifier": "all values and byte strings", "why_tests_cant": "all byte strings", "anchors": ["poc/vdaf_poc/vdaf_poplar1.py: encode_*/decode_*, encode_idpf_field_vec"]}
{"id": "C43", "title": "Ping-pong message framing", "statement": "decode(encode(type, items)) recovers type and items for the three message types; decode accepts exactly the encodings of well-formed messages (unique representation) and raises otherwise.", "quantifier": "all item byte strings shorter than 2^32, all byte strings", "why_tests_cant": "all byte strings", "anchors": ["poc/vdaf_poc/vdaf_ping_pong.py: encode, decode"]}
{"id": "C44", "title": "Ping-pong equals the broadcast execution", "statement": "For every two-party VDAF whose messages round-trip and fit the framing, running Leader and Helper through the ping-pong functions ends, after the VDAF's number of rounds, with both parties holding output shares exactly when the direct verify_init / verifier_shares_to_message / verify_next execution yields these output shares. Prio3 and Poplar1 are such VDAFs.", "quantifier": "all VDAFs with any ROUNDS >= 1, all inputs", "why_tests_cant": "unbounded rounds; all VDAFs", "anchors": ["poc/vdaf_poc/vdaf_ping_pong.py: ping_pong_leader_init, ping_pong_helper_init, ping_pong_transition, ping_pong_continued"]}
{"id": "C45", "title": "Ping-pong is total and fail-safe", "statement": "Whatever bytes arrive, ping-pong calls never raise: they return Rejected, or Continued with the round number of the role (0 for the Leader's and 1 for the Helper's first state, then two more per call), or a finished state only after exactly ROUNDS verifier messages have been verified; malformed messages, messages of the wrong type for the state and messages for a finished party are always rejected.", "quantifier": "all inbound byte strings, all sequences of inbound messages", "why_tests_cant": "adversarial message histories", "anchors": ["poc/vdaf_poc/vdaf_ping_pong.py: all ping_pong_* methods"]}
{"id": "C46", "title": "Verifier shares are combined in aggregator order", "statement": "In every ping-pong transition, verifier_shares_to_message is called with the Leader's share first and the Helper's second, in both roles and every round.", "quantifier": "all rounds, both roles", "why_tests_cant": "all histories", "anchors": ["poc/vdaf_poc/vdaf_ping_pong.py: ping_pong_helper_init, ping_pong_continued"]}
{"id": "C47", "title": "run_daf aggregates the outputs of preparation", "statement": "run_daf returns unshard of the per-aggregator folds of agg_update over the prepared output shares, each measurement contributing exactly once per aggregator.", "quantifier": "all DAFs, all measurement lists", "why_tests_cant": "unbounded batches", "anchors": ["poc/vdaf_poc/daf.py: run_daf"]}
{"id": "C48", "title": "Message-count discipline in Prio3 verification", "statement": "With joint randomness, a verifier message made from a list of verifier shares whose length differs from the number of Aggregators is rejected by every Aggregator unless seed derivation collides; without joint randomness nothing counts the shares (the empty list is accepted for Prio3Count).", "quantifier": "all lists of verifier shares", "why_tests_cant": "all lists", "anchors": ["poc/vdaf_poc/vdaf_prio3.py: verifier_shares_to_message"]}
{"id": "C49", "title": "Malformed sizes are rejected by Prio3", "statement": "shard raises ValueError when the nonce or the random string has the wrong length and otherwise consumes exactly RAND_SIZE bytes, every byte being used; constructors reject invalid share counts.", "quantifier": "all byte strings", "why_tests_cant": "all lengths", "anchors": ["poc/vdaf_poc/vdaf_prio3.py: __init__, shard"]}
{"id": "C50", "title": "Prio3 soundness end to end (verifier side)", "statement": "If the aggregators' measurement shares sum to an encoded vector that the circuit rejects for the joint randomness used, then for every proof shares, all but a bounded number of query randomness values make verifier_shares_to_message raise.", "quantifier": "all adversarial input shares, counting over query randomness", "why_tests_cant": "probability over field", "anchors": ["poc/vdaf_poc/vdaf_prio3.py: verify_init, verifier_shares_to_message"]}
{"id": "C51", "title": "Shamir example: any threshold set of shares reconstructs", "statement": "shamir_unshard on any list of at least threshold distinct share indices returns the secret vector; sharing is linear so aggregated shares reconstruct the aggregate. (Exception in the code: with two or more shares it raises IndexError if all coefficients of some shared polynomial are zero.)", "quantifier": "all secrets, thresholds, share subsets, randomness", "why_tests_cant": "exponentially many subsets", "anchors": ["poc/example_flp_shamir.py: shamir_shard, shamir_unshard", "poc/vdaf_poc/field.py: poly_interp"]}
{"id": "C52", "title": "Poplar1 aggregation is order- and partition-independent", "statement": "Whatever sequence of agg_init, agg_update and merge calls produced an aggregate share at a level, it is the sum of the output shares in the field of that level; accumulation never fails on output shares of the right class and length, and unshard returns the integers of the total.", "quantifier": "all finite histories of agg_init/agg_update/merge of Poplar1, all aggregation parameters", "why_tests_cant": "all schedules", "anchors": ["poc/vdaf_poc/vdaf_poplar1.py: agg_init, agg_update, merge, unshard"]}
{"id": "C53", "title": "Poplar1 sharding: sizes and structure", "statement": "shard raises ValueError when the nonce or the random string has the wrong length and never succeeds on a measurement whose length is not BITS; otherwise it succeeds, every byte of the random string is used in exactly one key or seed, the IDPF keys program [1, k] along the measurement, and the shares of (A, B) sum to (k - 2a, a^2 + b - ak + c) for the summed triples the correlation seeds expand to.", "quantifier": "all measurements, contexts, nonces and random strings, any XOFs, any BITS", "why_tests_cant": "unbounded inputs", "anchors": ["poc/vdaf_poc/vdaf_poplar1.py: shard"]}
{"id": "C54", "title": "Poplar1 verification of decoded messages is total", "statement": "On any public share and input share the decoders can return, honest or not, verify_init succeeds for every valid aggregation parameter, with a first-round state holding the output share and a three-element verifier share.", "quantifier": "all (adversarial) public and input shares, all valid aggregation parameters, any XOFs", "why_tests_cant": "all adversarial shares", "anchors": ["poc/vdaf_poc/vdaf_poplar1.py: verify_init, decode_input_share, decode_public_share"]}
{"id": "C55", "title": "run_vdaf aggregates the outputs of verification", "statement": "For every VDAF with any number of Aggregators and rounds, run_vdaf returns r exactly if the key has the right size, every report can be sharded and verified by all Aggregators in ROUNDS rounds of combining all verifier shares, and unshard of the per-Aggregator folds of agg_update over the output shares (each report exactly once) is r. For two Aggregators verification is the execution ping-pong is compared with.", "quantifier": "all VDAFs, all measurement lists, any SHARES and ROUNDS", "why_tests_cant": "unbounded batches, parties and rounds", "anchors": ["poc/vdaf_poc/vdaf.py: run_vdaf"]}
{"id": "C56", "title": "Prio3 verification of decoded messages is total", "statement": "On any public share and input share the decoders can return, honest or not, verify_init returns an output share of the right length and a well-formed verifier share, and raises nothing but ValueError, and that only if the FLP refuses the derived query randomness.", "quantifier": "all (adversarial) public and input shares, all Prio3 instances, any XOF", "why_tests_cant": "all adversarial shares", "anchors": ["poc/vdaf_poc/vdaf_prio3.py: verify_init, decode_input_share, decode_public_share"]}
{"id": "C57", "title": "Shamir example: fewer shares than the threshold reveal nothing", "statement": "For any threshold-1 distinct share indices and any values of these shares, every secret vector is consistent with them for exactly one choice of the random coefficients.", "quantifier": "all secrets, thresholds, share subsets and share values", "why_tests_cant": "information-theoretic; counting over all randomness", "anchors": ["poc/example_flp_shamir.py: shamir_shard"]}
{"id": "C58", "title": "Contexts and algorithms are separated", "statement": "Everything a Prio3 or Poplar1 instance does under an application context depends on TurboSHAKE128 only at messages tagged with the algorithm class, the instance's algorithm identifier and that context; no message carries two different such tags, and the Prio3 variants and Poplar1 have pairwise different identifiers.", "quantifier": "all contexts, identifiers, FLPs, inputs and any function in place of TurboSHAKE128", "why_tests_cant": "all contexts and all behaviours of the hash function", "anchors": ["poc/vdaf_poc/common.py: format_dst", "poc/vdaf_poc/xof.py: XofTurboShake128.__init__, XofFixedKeyAes128.__init__", "poc/vdaf_poc/vdaf_prio3.py: Prio3", "poc/vdaf_poc/vdaf_poplar1.py: Poplar1"]}
{"id": "C59", "title": "Purposes are separated in Prio3", "statement": "Every derivation of Prio3 (measurement share and proof share of each helper, prove randomness, query randomness, joint randomness part, seed and joint randomness) depends on TurboSHAKE128 at a single message, which determines the context, the purpose and all parameters of the derivation including the seed; shard makes only derivations from the seeds in its random string, each seed for the purpose it is meant for, verify_init those of its own shares, and verifier_shares_to_message only that of the joint randomness seed.", "quantifier": "all contexts, seeds, nonces, shares, Prio3 instances and any function in place of TurboSHAKE128", "why_tests_cant": "all behaviours of the hash function", "anchors": ["poc/vdaf_poc/vdaf_prio3.py: shard, verify_init, verifier_shares_to_message, joint_rand_part, joint_rand_seed, joint_rands, prove_rands, query_rands, helper_meas_share, helper_proofs_share"]}
{"id": "C60", "title": "Purposes are separated in Poplar1 and its IDPF", "statement": "Every derivation of Poplar1 and of the IDPF depends on TurboSHAKE128 at a single message that determines the context, the purpose and all its parameters; shard, verify_init, gen and eval make only the derivations of their own inputs, and verifier_shares_to_message and verify_next none.", "quantifier": "all contexts, seeds, nonces, levels, keys and any functions in place of TurboSHAKE128 and AES", "why_tests_cant": "all behaviours of the hash function", "anchors": ["poc/vdaf_poc/vdaf_poplar1.py: shard, verify_init", "poc/vdaf_poc/idpf_bbcggi21.py: gen, eval, extend, convert, current_xof"]}
{"id": "C61", "title": "A deployment over encoded messages computes the aggregate", "statement": "When clients upload encoded shares, Leader and Helper verify each upload with the ping-pong functions, accumulate the outputs of the reports both finish and send encoded aggregate shares, the Collector obtains what run_vdaf computes directly from the reports that verify. For Prio3Count, Sum, SumVec (also with multiproof), Histogram and MultihotCountVec it is the true aggregate of all reports except those whose derived query randomness the FLP refuses; for Poplar1 it is the true prefix counts of all reports.", "quantifier": "all batches of measurements, nonces, randomness, contexts, keys, any XOFs; generically for all VDAFs with faithful codecs", "why_tests_cant": "unbounded batches, full protocol over byte strings", "anchors": ["poc/vdaf_poc/vdaf.py: run_vdaf", "poc/vdaf_poc/vdaf_ping_pong.py: ping_pong_leader_init, ping_pong_helper_init, ping_pong_continued", "poc/vdaf_poc/vdaf_prio3.py: Prio3", "poc/vdaf_poc/vdaf_poplar1.py: Poplar1"]}
{"id": "C62", "title": "Prio3 deployments are robust against arbitrary uploads", "statement": "Whatever byte strings are uploaded, aggregation never fails because of them: the result is the decoding of the sum of the contributions of the uploads that finish verification, each of which is the truncation of a vector for which the FLP verifier accepts every proof under the derived query and joint randomness; the upload of an honest client finishes unless the FLP refuses the derived query randomness and contributes exactly the truncated encoding of its measurement.", "quantifier": "all lists of uploaded byte strings, all Prio3 instances, any XOF", "why_tests_cant": "all adversarial uploads", "anchors": ["poc/vdaf_poc/vdaf_prio3.py: verify_init, verifier_shares_to_message, verify_next, agg_update, unshard", "poc/vdaf_poc/vdaf_ping_pong.py: all ping_pong_* methods"]}
{"id": "C63", "title": "FLP proofs are zero-knowledge", "statement": "For a measurement in the language of the circuit and query randomness the verifier does not refuse, the verifier computed from an honest proof under uniform prove randomness is distributed as the output of a simulator that never sees the measurement (each outcome of the simulator comes from exactly one choice of prove randomness). With additive shares, the joint view of all Aggregators but one (their measurement and proof shares and all verifier shares) is distributed the same for any two measurements in the language.", "quantifier": "all circuits satisfying the circuit interface (the five library circuits in particular), all measurements in the language, any number of Aggregators, counting over all randomness", "why_tests_cant": "information-theoretic; counting over all randomness", "anchors": ["poc/vdaf_poc/flp_bbcggi19.py: prove, query", "poc/vdaf_poc/vdaf_prio3.py: shard"]}
{"id": "C64", "title": "Poplar1 sketch verification reveals nothing", "statement": "When two Aggregators verify the sketch of an honest client, the messages of both rounds that either of them sees are distributed, over the other's share of the random triple, the same for any two clients with the same values for that Aggregator, whatever the measurement and the authenticator.", "quantifier": "all values, verification randomness, triples and correlation shares, at inner and leaf levels, counting over the triple", "why_tests_cant": "information-theoretic; counting over all randomness", "anchors": ["poc/vdaf_poc/vdaf_poplar1.py: verify_init, verifier_shares_to_message, verify_next"]}
{"id": "C65", "title": "FLP verification on Shamir shares", "statement": "Share measurement and proof with Shamir's scheme with threshold t and query any t or more of the shares (num_shares = 1): reconstruction from the verifier shares gives exactly the verifier of the unshared measurement and proof, or raises IndexError, the latter exactly when more than one share is used and some component is zero in all verifier shares. Hence honest proofs of valid measurements are never rejected, and an invalid measurement is accepted for at most the fraction d/|F| of the query randomness.", "quantifier": "all circuits satisfying the circuit interface, measurements, proofs, thresholds, share subsets and randomness", "why_tests_cant": "all inputs and all random choices", "anchors": ["poc/example_flp_shamir.py: shamir_shard, shamir_unshard, TestShamir", "poc/vdaf_poc/flp_bbcggi19.py: query, decide"]}
{"id": "C66", "title": "The plotted soundness estimate bounds cheating", "statement": "For an invalid measurement and any proof the fraction of accepting query randomness is at most the script's estimate (for m proofs: its robustness bound) computed with the gadget calls rounded up to one less than a power of two; this is the script's own value if every gadget is called one time less than a power of two. In general the script's value is not a bound, because it ignores the padding of the wire polynomials.", "quantifier": "all circuits satisfying the circuit interface, measurements, proofs, joint randomness and numbers of proofs; floating point modelled by exact rationals", "why_tests_cant": "counting over all query randomness", "anchors": ["poc/plot_prio3_multiproof_robustness.py: base_soundness, robustness", "poc/vdaf_poc/flp_bbcggi19.py: prove, query, decide"]}
{"id": "C67", "title": "Cheating succeeds with small probability over all randomness", "statement": "For shares of a vector that the circuit's language excludes and a prover who chooses the proof shares after seeing the joint randomness, the fraction of pairs of joint and query randomness for which Prio3's verification of m proofs accepts is at most ((chunk_length + d)/|F|)^m for Histogram, SumVec and MultihotCountVec and (d/|F|)^m for Count and Sum, where d is twice the padded number of gadget calls; in general it is bounded by the number of bad joint randomness and the degrees of the gadget polynomials. The plotting script's bound for SumVec follows if the number of gadget calls needs no padding.", "quantifier": "all invalid measurements, all share splits, all prover strategies, numbers of Aggregators and proofs; counting over all joint and query randomness", "why_tests_cant": "all adversarial strategies, unbounded sizes", "anchors": ["poc/vdaf_poc/vdaf_prio3.py: verify_init, verifier_shares_to_message", "poc/vdaf_poc/flp_bbcggi19.py: query, decide, Histogram, SumVec, MultihotCountVec, Count, Sum", "poc/plot_prio3_multiproof_robustness.py: sum_vec"]}
{"id": "C68", "title": "Poplar1 deployments are robust against arbitrary uploads", "statement": "Whatever byte strings are uploaded, aggregation never fails because of them: the Collector obtains, modulo the field size of the level, the number of honest clients with each candidate prefix plus the contributions of the other uploads that finish verification. The contribution of an upload does not depend on the verification key; if it is anything but zero or one at a single prefix, the upload finishes for at most 2|F|^(n-1) of the |F|^n vectors of verification randomness (n candidate prefixes).", "quantifier": "all lists of uploaded byte strings, levels, candidate prefixes, contexts and keys, any functions in place of TurboSHAKE128 and AES", "why_tests_cant": "all adversarial uploads, counting over all verification randomness", "anchors": ["poc/vdaf_poc/vdaf_poplar1.py: verify_init, verifier_shares_to_message, verify_next, agg_update, unshard", "poc/vdaf_poc/vdaf_ping_pong.py: all ping_pong_* methods"]}
{"id": "C69", "title": "The circuits, FLPs and Prio3 variants of the test suite", "statement": "The test suite's circuits (MultiGadget, HigherDegree, TestAverage) satisfy the circuit interface and accept exactly the zero vector, the integers 0 to 2 and the range-checked integers; Prio3 with them computes the average rounded down (ZeroDivisionError on an empty batch) and the sum of measurements up to 2. FlpTest satisfies the FLP interface Prio3 needs, so that Prio3 on top computes the sum, but some proof makes it accept every measurement and its verifier is the measurement.", "quantifier": "all batches, contexts, keys, randomness, any XOF, any number of shares", "why_tests_cant": "unbounded batches, all randomness", "anchors": ["poc/tests/test_flp_bbcggi19.py: MultiGadget, HigherDegree, TestAverage", "poc/tests/test_vdaf_prio3.py: Prio3Average, Prio3HigherDegree, Prio3FlpTest", "poc/tests/test_flp.py: FlpTest"]}
{"id": "C70", "title": "The DAF of the test suite computes the sum", "statement": "run_daf with TestDaf returns the sum of the measurements modulo the field size for every batch, whatever the hash function.", "quantifier": "all batches of integers of absolute value below the modulus, all randomness, any XOF", "why_tests_cant": "unbounded batches", "anchors": ["poc/tests/test_daf.py: TestDaf", "poc/vdaf_poc/daf.py: run_daf"]}
{"id": "C71", "title": "The test-vector checker accepts exactly the recorded executions", "statement": "A test vector that lists all operations on its reports and one aggregate share per Aggregator passes check_test_vector exactly when the encoded shares, messages, output shares, aggregate shares and the result it records are those of executing the VDAF on its inputs; gen_test_vec_for_vdaf produces a vector with result r exactly when run_vdaf returns r, and every vector it produces passes. Prio3 and Poplar1 meet the assumptions on the codecs. The number of aggregate shares is not checked.", "quantifier": "all VDAFs whose codecs read back the values of the execution, any SHARES and ROUNDS, all batches, all test vectors", "why_tests_cant": "unbounded batches, parties and rounds", "anchors": ["poc/vdaf_poc/test_utils.py: gen_test_vec_for_vdaf, test_vec_gen_rand", "poc/tests/test_test_vectors.py: check_test_vector"]}
{"id": "C72", "title": "Endings of the ping-pong protocol and its multi-round test", "statement": "With any VDAF and any peer, a Leader can end in Finished only if ROUNDS is odd and in FinishedWithOutbound only if it is even, and a Helper the other way round. The VDAF of the unit test computes agg_param times the sum of the measurements for every number of rounds, its multi-round test ends with both parties holding the measurement, and a message of another round is rejected.", "quantifier": "all VDAFs and inbound messages; all numbers of rounds below 2^31, measurements and aggregation parameters that fit eight bytes", "why_tests_cant": "any number of rounds, all adversarial messages", "anchors": ["poc/vdaf_poc/vdaf_ping_pong.py: ping_pong_leader_init, ping_pong_helper_init, ping_pong_continued, ping_pong_transition", "poc/tests/test_vdaf_ping_pong.py: PingPongTester, test_multi_round"]}
{"id": "C73", "title": "One Aggregator's view of an IDPF sharing is independent of what is shared", "statement": "gen is the ideal sharing in which what the XOFs put out for the other Aggregator's key along the path is used as masks; for every alpha, beta and own key, each well-formed public share with even seeds arises from exactly one choice of masks, so that for uniform masks the public share is uniform whatever is shared.", "quantifier": "all alpha, beta, contexts, nonces, keys of either Aggregator, masks and well-formed public shares, any hash function and block cipher", "why_tests_cant": "any BITS and VALUE_LEN, all masks", "anchors": ["poc/vdaf_poc/idpf_bbcggi21.py: gen, extend, convert"]}
{"id": "C74", "title": "One Aggregator's whole view of Poplar1 is independent of the measurement", "statement": "What an Aggregator receives - the public share and the verifier shares of both rounds for each aggregation parameter - is determined by its input share, the measurement, and what the XOFs put out for the other Aggregator's key and correlation seed; when the latter are replaced by masks and coins, each view of one measurement and authenticators arises from exactly one choice of masks and coins for any other measurement and authenticators.", "quantifier": "all pairs of measurements and authenticators, all input shares of either Aggregator, any number of aggregation parameters (one coin for each, as at different levels), any verification randomness", "why_tests_cant": "any BITS, any number of queries and prefixes, all masks and coins", "anchors": ["poc/vdaf_poc/vdaf_poplar1.py: shard, verify_init, verify_next, verifier_shares_to_message", "poc/vdaf_poc/idpf_bbcggi21.py: gen, eval"]}
{"id": "C75", "title": "A coalition's view of Prio3 is independent of the measurement", "statement": "All Aggregators but one pool their measurement and proof shares and the verifiers of everyone, for any number of proofs. For query randomness that query does not refuse and given joint randomness, each view of one valid measurement arises from exactly one choice of coins (prove randomness and Helper shares) for any other valid measurement. What shard and verify_init produce is such a view, with XOF outputs as coins.", "quantifier": "all pairs of valid measurements, all coalitions of all but one Aggregator, any SHARES, PROOFS and circuit satisfying the circuit interface; the joint randomness, an XOF output, is taken as given", "why_tests_cant": "any number of Aggregators and proofs, all coins", "anchors": ["poc/vdaf_poc/vdaf_prio3.py: shard, verify_init", "poc/vdaf_poc/flp_bbcggi19.py: prove, query"]}
{"id": "C76", "title": "Poplar1 detects tampered correlated randomness, exactly when", "statement": "For the Client's IDPF keys and any correlation seeds and offsets whatever, at every level, the two rounds of verification end with acceptance exactly if the error of the correlated randomness - a linear polynomial in the first element of the message of round one - vanishes, and with ValueError otherwise. Changing the Client's B offset is always detected; changing the A offset is detected unless that first element, the masked verification randomness, is zero.", "quantifier": "all measurements, levels, duplicate-free candidate prefixes, correlation seeds and offsets, verification keys, any hash function and block cipher", "why_tests_cant": "any BITS and number of prefixes, all tampered correlated randomness", "anchors": ["poc/vdaf_poc/vdaf_poplar1.py: verify_init, verifier_shares_to_message, verify_next"]}
{"id": "C77", "title": "What the verifiers of Prio3Count accept", "statement": "Verification of arbitrary input shares fails in every Aggregator's verify_init if the test point squares to one, and otherwise accepts exactly if the sums of the shares satisfy two explicit equations (the last proof element is the measurement; the product of two lines equals a parabola at the test point). Changing a single element of an accepted measurement or proof leads to rejection, except for a wire seed when the other wire vanishes at the test point, and the first gadget value when the test point is the square root of -1.", "quantifier": "all input shares, test points and changes, any number of Aggregators, any NTT-friendly field with a gadget domain, any XOF", "why_tests_cant": "all shares, all changes, any number of Aggregators", "anchors": ["poc/vdaf_poc/vdaf_prio3.py: verify_init, verifier_shares_to_message", "poc/vdaf_poc/flp_bbcggi19.py: query, decide, Count"]}
{"id": "C78", "title": "The negative test vectors are accepted by the checker", "statement": "Each vector that the generators of negative test vectors for Prio3 and Poplar1 produce is accepted by check_test_vector. Given that verify_init succeeds, a vector is produced exactly if verification then raises ValueError; otherwise the generator raises an exception: for Prio3Count only when the other wire vanishes (changed wire seed), for Poplar1 exactly at levels other than 0 or when the first element of the message of round one is zero, for the zeroed verifier message exactly when the expected seed is zero. The vectors record the report that shard() makes with the bytes 0, 1, 2, ... as randomness (and, for Count and Poplar1, as key and nonce), with exactly one bit of one string changed or one field element increased by one; for the zeroed verifier message the report is unchanged.", "quantifier": "all Prio3 instances with two Aggregators, all Poplar1 instances, contexts, measurements, aggregation parameters, any XOF", "why_tests_cant": "all instances and parameters", "anchors": ["poc/gen_test_vec.py: gen_prio3_negative_test_vec, _prio3_verifier_shares_to_message_failure, gen_poplar1_negative_test_vec", "poc/tests/test_test_vectors.py: check_test_vector"]}
{"id": "C79", "title": "When the unit tests of fields and polynomials pass", "statement": "The arithmetic test of each of the four fields passes exactly if the first drawn element is not zero (AssertionError otherwise); the tests of the three NTT fields pass exactly if, besides, none of the polynomials drawn is zero (IndexError otherwise), and so do the tests of interpolation and of Lagrange evaluation; the tests of basis change, product, extension and doubling in the Lagrange basis pass whatever is drawn.", "quantifier": "all values that the tests can draw", "why_tests_cant": "all random choices", "anchors": ["poc/tests/test_field.py: TestFields, TestPolynomials"]}
{"id": "C80", "title": "When the unit tests of the IDPF pass", "statement": "int_to_bit_string and bytes_to_bit_string give big-endian bits. For every tree, run_idpf_test passes exactly if the level is one of the tree and the prefixes are distinct and of that level, and raises ValueError otherwise; the exhaustive test passes for every alpha and beta; the index-encoding test passes exactly if the prefix is a beginning of the bits of the index; the tests of the suite pass whatever they draw (unless the bound of the model on rejection sampling is hit).", "quantifier": "all VALUE_LEN and BITS, alpha, beta, levels, lists of prefixes and randomness, any hash function and block cipher", "why_tests_cant": "any tree depth, all random choices", "anchors": ["poc/tests/test_idpf_bbcggi21.py: TestIdpfBBCGGI21, bytes_to_bit_string, int_to_bit_string", "poc/vdaf_poc/idpf_bbcggi21.py: gen, eval"]}
{"id": "C81", "title": "The unit tests of Prio3 pass except for rejected query randomness", "statement": "run_vdaf_test passes exactly if the identifier fits 32 bits and run_vdaf returns the expected result. The tests of Prio3Count, Sum, SumVec, Histogram, MultihotCountVec, of the multiproof variant for two to four proofs, and of the average, higher-degree and FlpTest variants pass whatever they draw, except for ValueError when the query randomness derived for some report of the test is rejected by the FLP (or the bound of the model on rejection sampling is hit).", "quantifier": "all values that the tests can draw, any XOF", "why_tests_cant": "all random choices", "anchors": ["poc/vdaf_poc/test_utils.py: TestVdaf.run_vdaf_test, TestDaf.run_daf_test", "poc/tests/test_vdaf_prio3.py: all tests", "poc/vdaf_poc/vdaf_prio3.py: all methods"]}
{"id": "C82", "title": "The unit tests of Poplar1 and of the DAF pass", "statement": "A call of the Poplar1 test with well-formed arguments passes exactly if the expected counts are the numbers of measurements with the given prefixes, and raises AssertionError otherwise. The test suites of Poplar1 and of the DAF pass whatever they draw (unless the bound of the model on rejection sampling is hit), including the call with a level beyond the tree, which has no report.", "quantifier": "all levels, candidate prefixes, measurements, expected counts and values that the tests can draw, any hash function and block cipher", "why_tests_cant": "any BITS, unbounded batches, all random choices", "anchors": ["poc/tests/test_vdaf_poplar1.py: all tests", "poc/tests/test_daf.py: test", "poc/vdaf_poc/vdaf_poplar1.py: all methods"]}
{"id": "C83", "title": "When the unit tests of the FLPs pass", "statement": "For the honest proof of any vector, run_flp decides whether the circuit output (reduced with the query randomness) is zero, and raises ValueError if a test point is a root of unity. The gadget test passes for every usable gadget. Each test of the suite passes exactly if no test point drawn is a root of unity and the vectors labelled False are caught, which for Count and HigherDegree is always, for Sum if the first 14 query elements do not add up to zero; it fails with the corresponding exception otherwise. All labels are right. The round-trip, gadget and FlpTest tests pass whatever they draw.", "quantifier": "all values that the tests can draw; harness: all circuits satisfying the circuit interface, all cases", "why_tests_cant": "all random choices, all circuits", "anchors": ["poc/vdaf_poc/test_utils.py: TestFlpBBCGGI19", "poc/tests/test_flp_bbcggi19.py: all tests", "poc/tests/test_flp.py: test", "poc/vdaf_poc/flp.py: run_flp"]}
{"id": "C84", "title": "Unit tests of the XOFs, test vectors of XOFs and IDPFs, and printed lines", "statement": "The test of each XOF passes whatever seed is used (unless the bound of the model on rejection sampling is hit), while a XOF whose calls of next() start over fails it; the test of rejection sampling passes exactly if the element accepted after 13882 others is the expected one. The test vector of a XOF records a beginning of one output stream and the accepted chunks of that stream; that of an IDPF, read back, evaluates to its beta on the prefixes of alpha and to zero elsewhere. A long line printed in pieces can be put together again, and fromhex reads printed hexadecimal text as it stands if the indentation is even and below 72.", "quantifier": "all seeds, both XOFs with any hash function and block cipher, all IDPFs with BITS below both moduli, all lines and indentations", "why_tests_cant": "all lengths, trees of any depth", "anchors": ["poc/tests/test_xof.py: all tests", "poc/tests/test_common.py: test_bitrev", "poc/gen_test_vec.py: gen_test_vec_for_xof, gen_test_vec_for_idpf", "poc/vdaf_poc/common.py: print_wrapped_line"]}
{"id": "C85", "title": "The program that writes the test vectors and the tests that read them agree", "statement": "The tests construct from the recorded integers the VDAF that a test vector was made for (for the multiproof variant if its field is Field64 and its number of proofs is 3, which are not recorded), and the recorded parameters overwrite no other entry. When main() of gen_test_vec.py finishes, the files it has written are exactly those the tests read, each once; each is accepted by the test that reads it; the aggregate results are the true sums, histograms and prefix counts. A call of gen_test_vec_for_vdaf in main() fails only if the query randomness derived for the test vector is rejected (or the bound of the model on rejection sampling is hit). Printing a test vector succeeds exactly if every verifier message is in a round with verifier shares, and raises TypeError otherwise.", "quantifier": "any hash function and block cipher; all parameters of the constructors; printing: all test vectors", "why_tests_cant": "all parameters, any XOF output", "anchors": ["poc/gen_test_vec.py: main", "poc/vdaf_poc/test_utils.py: gen_test_vec_for_vdaf, pretty_print_vdaf_test_vec", "poc/tests/test_test_vectors.py: run_test, all classes", "poc/vdaf_poc/vdaf_prio3.py: test_vec_set_type_param", "poc/vdaf_poc/vdaf_poplar1.py: test_vec_set_type_param", "poc/vdaf_poc/flp_bbcggi19.py: test_vec_set_type_param"]}
{"id": "C86", "title": "The listings in the document compute what the reference code computes", "statement": "The listings of the XOFs, gadgets, circuits, FlpBBCGGI19 and run_vdaf in the text of the document, which leave out checks of the code and read XofTurboShake128 differently, do the same as the code: the listed XofTurboShake128 gives the same bytes whenever at least one is asked for, hence the same seeds and vectors; encode, truncate, prove, query and decide of each of the five circuits, and a whole execution of Prio3 with any of them or of Poplar1, return the same value or raise the same exception, unless the code raises AssertionError or one of eight ValueErrors in a line that the document leaves out.", "quantifier": "all circuits, parameters, measurements, randomness, contexts, reports, any hash function and block cipher", "why_tests_cant": "all inputs, unbounded batches", "anchors": ["draft-irtf-cfrg-vdaf.md: Python listings", "poc/vdaf_poc/xof.py: XofTurboShake128, XofFixedKeyAes128", "poc/vdaf_poc/flp_bbcggi19.py: all classes", "poc/vdaf_poc/vdaf.py: run_vdaf"]}
{"id": "C87", "title": "The heavy hitters protocol finds exactly the heavy hitters", "statement": "The protocol that the document builds from Poplar1 - query the counts of candidate prefixes, keep those with count at least T, extend them by one bit - returns for honest clients exactly the strings held by at least T clients, sorted and without repetitions; is_valid() admits every aggregation parameter it uses, whose prefixes are exactly the children of the prefix tree of the batch; for positive T and N clients there are at most max(2, 2 floor(N/T)) of them. If K clients upload arbitrary strings of bytes and those that pass verification contribute one-hot or zero vectors, each string held by T honest clients is returned and each string returned is held by at least T - K honest clients.", "quantifier": "all batches, thresholds, BITS up to 2^16, contexts, verification keys, arbitrary other uploads, any hash function and block cipher", "why_tests_cant": "unbounded batches, any BITS up to 2^16", "anchors": ["draft-irtf-cfrg-vdaf.md:4741-4786", "poc/vdaf_poc/vdaf_poplar1.py: all methods"]}
{"id": "C88", "title": "The aggregate shares tell the Collector nothing but the result", "statement": "A Helper's aggregate share is the sum of the output shares expanded from the seeds that the Clients drew for it; measurements, nonces and verification key do not enter. The Leader's is the vector that decodes to the aggregate result minus the Helpers' shares. So two batches of reports made with the same randomness that have the same aggregate result have the same aggregate shares, whatever the measurements, nonces and verification keys.", "quantifier": "Count, Sum, SumVec, Histogram, MultihotCountVec over any NTT field, any number of shares and proofs, any hash function; the first claim for every FLP satisfying the FLP interface", "why_tests_cant": "unbounded batches, all parameters", "anchors": ["poc/vdaf_poc/vdaf_prio3.py: shard, verify_init, verify_next, agg_update, unshard", "poc/vdaf_poc/vdaf.py: run_vdaf"]}
{"id": "C89", "title": "The encodings are the message structures of the document", "statement": "The document describes the messages on the wire as structures in the presentation language of TLS: ping-pong messages; public shares, input shares, verifier shares, verifier messages and aggregate shares of Prio3 and Poplar1; and the aggregation parameter of Poplar1. Each encoder writes exactly the bytes that the structure prescribes. Among well-formed messages a decoder reads a string as the message of which it is the encoding under the structure, and nothing else. The decoders of input shares, of verifier shares of Prio3, of public shares (of Prio3 with joint randomness), of aggregation parameters and of ping-pong messages return only well-formed messages. The others are more liberal: without joint randomness every string is read as a public share, and verifier messages of Prio3 and aggregate shares may have any length.", "quantifier": "every Prio3 and Poplar1 object, all messages, all strings", "why_tests_cant": "all byte strings and parameters", "anchors": ["draft-irtf-cfrg-vdaf.md:1790-1812,3405-3531,5393-5630", "poc/vdaf_poc/vdaf_prio3.py: encode_*, decode_*", "poc/vdaf_poc/vdaf_poplar1.py: encode_*, decode_*", "poc/vdaf_poc/idpf_bbcggi21.py: encode_public_share, decode_public_share", "poc/vdaf_poc/vdaf_ping_pong.py: encode, decode"]}
{"id": "C90", "title": "The unit tests of the Shamir example", "statement": "test_shard_unshard and test_aggregate pass whatever shamir_shard() draws. Each of the tests of an FLP on Shamir shares (Count, Sum, SumVec) passes exactly if no test point is a root of unity and no component of the two verifier shares is zero in both; otherwise it raises ValueError in the first case and IndexError (from shamir_unshard) in the second. The same holds for every valid measurement of every circuit, and the sums of truncated Shamir shares of measurements of Sum are Shamir shares of the sum.", "quantifier": "all draws; for the general forms all circuits, fields, measurements", "why_tests_cant": "the tests draw fresh randomness; all draws", "anchors": ["poc/example_flp_shamir.py: TestShamir"]}
{"id": "C91", "title": "The parameters and constants are those of the tables of the document", "statement": "The fields have the moduli, encoded sizes, generators and generator orders of the table of the document, the moduli are prime and the generators have exactly the stated orders; every object built by a constructor of a Prio3 variant has the codepoint, field, circuit, number of proofs, key, nonce and randomness sizes, number of rounds and shares of the tables; so do Poplar1 and its IDPF; the usage constants are those listed. The one row a constructor does not enforce is the range of PROOFS: with 256 or more neither sharding nor verification ever returns, and with 0 the verifier shares are empty and no proof is ever rejected.", "quantifier": "all sponges, ciphers, constructor arguments; all Prio3 objects with PROOFS = 0 or PROOFS >= 256", "why_tests_cant": "Two implementations agree only if every size, constant and codepoint agrees; a proof count of zero silently turns verification off.", "anchors": ["poc/vdaf_poc/field.py: Field64, Field128, Field255", "poc/vdaf_poc/vdaf_prio3.py: Prio3, Prio3Count, Prio3Sum, Prio3SumVec, Prio3Histogram, Prio3SumVecWithMultiproof, Prio3MultihotCountVec", "poc/vdaf_poc/vdaf_poplar1.py: Poplar1", "poc/vdaf_poc/idpf_bbcggi21.py: IdpfBBCGGI21", "draft-irtf-cfrg-vdaf.md: 2343-2349, 2856-2887,4104-4108,4153-4157,4298-4302,4461-4465,4578-4582,4950-4977,5649-5658,6332-6342"]}
{"id": "C92", "title": "The chunk length and the length of proofs", "statement": "A proof of SumVec, Histogram or MultihotCountVec has 2c wire seeds and 2*2^k - 1 further elements, where c is the chunk length and 2^k the least power of two exceeding the number of chunks of the padded measurement. Whatever c is, it has at least 4 sqrt(n) + 1 elements for an encoded measurement of length n. With a chunk length less than 1 away from sqrt(n) proofs are at most 50% longer than with any other chunk length, and no smaller percentage holds: for n = 4^k (k at least 1) the square root gives 6*2^k - 1 elements and another chunk length 4*2^k + 3.", "quantifier": "all fields, lengths, maxima, weights and chunk lengths", "why_tests_cant": "The document asks for the square root 'to minimize' communication; the exact cost of that choice bounds what an implementation can gain by tuning.", "anchors": ["poc/vdaf_poc/flp_bbcggi19.py: SumVec, Histogram, MultihotCountVec, FlpBBCGGI19.PROOF_LEN", "draft-irtf-cfrg-vdaf.md:4438-4457"]}
{"id": "C93", "title": "What verification does not protect against", "statement": "A Client that knows the verification key shares any vector that is consistent with some answers of the gadget, replaces the Leader's proofs share, and the report is accepted: with one report it makes the result of Prio3 any count, any sum, any vector of counts or sums over the field, and for the histogram exactly the vectors with entries adding up to 1. A malicious Aggregator of Prio3 that knows the other aggregate shares makes the Collector decode any vector, and without knowing them adds any vector to the total; either Aggregator of Poplar1 makes the result any counts over the field.", "quantifier": "Count, Sum, SumVec, Histogram, MultihotCountVec over any NTT field, any number of shares and proofs, any hash function, all keys, contexts, nonces and randomness for which the derived query randomness is not rejected; every Prio3 object and every Poplar1 object for the Aggregators", "why_tests_cant": "The requirements of the document on the secrecy of the verification key and on the Aggregators are necessary, not merely prudent.", "anchors": ["poc/vdaf_poc/vdaf_prio3.py: shard, verify_init, verify_next, unshard", "poc/vdaf_poc/vdaf_poplar1.py: unshard", "poc/vdaf_poc/flp_bbcggi19.py: prove, query, decide", "draft-irtf-cfrg-vdaf.md:6003-6055"]}
{"id": "C94", "title": "Verifying a report more than once reveals the measurement", "statement": "For Prio3 with Count, Sum, SumVec, Histogram or MultihotCountVec: if two reports with the same nonce, whatever their randomness, produce verifier shares with the same sums under sufficiently many verification keys whose test points for one proof are distinct, the encoded measurements are the same; sufficiently many means the length of the wire polynomials, which is two for Count and lies between one more than and twice the number of gadget calls in general. So the sums the Aggregators exchange determine the measurement, while those of one verification reveal nothing (C75). The proof system has the same property for arbitrary vectors and arbitrary proofs. For Poplar1: if a report is verified twice at the same level with the same number of candidate prefixes, the difference of the first elements of the messages of round one is the difference of the known verification randomness of the candidates on the path of the measurement; with one candidate each it is the randomness, its negation or zero as the measurement starts with the first, the second or neither.", "quantifier": "all NTT fields, circuits, reports, keys, contexts, hash functions, numbers of shares and proofs; all Poplar1 objects, levels, candidate prefixes", "why_tests_cant": "The document restricts re-use of reports without saying what goes wrong; this is the attack.", "anchors": ["poc/vdaf_poc/vdaf_prio3.py: shard, verify_init", "poc/vdaf_poc/vdaf_poplar1.py: verify_init, verifier_shares_to_message", "poc/vdaf_poc/flp_bbcggi19.py: query", "draft-irtf-cfrg-vdaf.md:6054-6092"]}
{"id": "C95", "title": "The circuit parameters are not bound to the computation", "statement": "Clients that run Prio3SumVec with one length and maximum and Aggregators that run it with others complete every execution, if encoded measurements have the same size and the chunk lengths agree: no report is rejected (except for the test points that any execution rejects), and the result is the column totals of the misread measurements. These are in the range of the Aggregators; if both maxima are one less than a power of two they are the digits, in the base of the Aggregators, of the number whose digits in the base of the Client the measurement is; if the lengths agree each entry of at least the highest power of two is shifted by the difference of the maxima and the others are read correctly. The same shift happens for Prio3Sum with maxima of the same number of bits.", "quantifier": "all NTT fields, hash functions, numbers of shares and proofs, keys, contexts, batches of honest Clients, lengths, maxima and chunk lengths", "why_tests_cant": "The document mentions that such reports can be accepted; tests run Clients and Aggregators with the same parameters.", "anchors": ["poc/vdaf_poc/vdaf_prio3.py: shard, verify_init, verifier_shares_to_message, unshard", "poc/vdaf_poc/flp_bbcggi19.py: SumVec, Sum, encode_range_checked_int, decode_range_checked_int", "draft-irtf-cfrg-vdaf.md:6279-6285"]}
{"id": "C96", "title": "A Client of Poplar1 can vote differently at different levels", "statement": "For any choice of levels, a Client that shards honestly and then replaces only the public share makes its report accepted at every level for every list of candidate prefixes, contributing the prefix of its string at the chosen levels and nothing at the others. Such counts need not be the counts of any collection of strings: a prefix can have count 0 while its extension by one bit has count 1.", "quantifier": "all Poplar1 objects, strings, sets of levels, verification keys, contexts, candidate prefixes, hash functions and block ciphers", "why_tests_cant": "The document only requires one-hot vectors per level; what is not checked across levels has to be known to applications.", "anchors": ["poc/vdaf_poc/vdaf_poplar1.py: shard, verify_init, verifier_shares_to_message, unshard", "poc/vdaf_poc/idpf_bbcggi21.py: gen, eval", "draft-irtf-cfrg-vdaf.md:6128-6162"]}
{"id": "C97", "title": "A malicious Aggregator steers the heavy hitters protocol", "statement": "If one Aggregator adds an amount of its choice to its share of the count of each candidate prefix, the protocol returns exactly the strings of which every non-empty beginning has a count in the batch that reaches the threshold together with the amount added. So by adding T - T' everywhere the Aggregator lowers the threshold from T to T', and by adding T to the beginnings of one target string it makes the protocol return that string in addition to the heavy hitters and learns exactly how many clients hold it.", "quantifier": "all batches, thresholds, shifts, BITS up to 2^16, contexts, verification keys, either Aggregator, any hash function and block cipher; totals below the modulus of the inner field", "why_tests_cant": "Privacy of the heavy hitters protocol depends on both Aggregators being honest about the counts.", "anchors": ["poc/vdaf_poc/vdaf_poplar1.py: all methods", "draft-irtf-cfrg-vdaf.md:4741-4786,6116-6127"]}
{"id": "C98", "title": "Changing the public share of Poplar1 reveals the measurement", "statement": "The public share of an IDPF is malleable: adding a vector to the payload of a level gives the public share that belongs, with the same keys, to the point function whose value at that level is larger or smaller by that vector. If the Aggregators verify an honest report of Poplar1 with a public share in which an amount d (neither 0 nor 1 nor -1 in the field) has been added to the count of a level, then with a single candidate prefix of that level they accept if the measurement does not start with it, and reject if it does unless the verification randomness derived for the candidate is one of two values. In general they accept exactly if the randomness x of the candidate on the path is zero or the root of a linear equation.", "quantifier": "all IDPF objects, values and shares; all Poplar1 objects, levels, measurements, amounts, verification keys, contexts, candidate prefixes, hash functions and block ciphers", "why_tests_cant": "The document requires the Aggregators to make sure that they use the public share of the Client without saying what goes wrong; this is the attack.", "anchors": ["poc/vdaf_poc/idpf_bbcggi21.py: gen, eval", "poc/vdaf_poc/vdaf_poplar1.py: shard, verify_init, verify_next, verifier_shares_to_message", "draft-irtf-cfrg-vdaf.md:6082-6086"]}
{"id": "C99", "title": "Offline attacks on the joint randomness of Prio3", "statement": "A Client that shares any vector of field elements and proves honestly can compute the joint randomness of the report from the public share, before it uploads and without the verification key. For every key whose test points are not rejected the report counts, as the decoding of the truncated vector, exactly if in every proof the output of the circuit under that joint randomness, reduced with the query randomness, is zero; otherwise it is rejected with the message about the verifier. So joint randomness under which the circuit accepts in every proof makes the report count under every key, and for a circuit with one output (Count, SumVec) nothing else does. If at most A vectors of joint randomness are accepting for one proof then at most A to the power of the number of proofs are accepting for all. They exist: for SumVec all-zero joint randomness accepts every vector, and a vector with a single element that is not a bit is accepted exactly if the joint randomness for its chunk is zero in every proof.", "quantifier": "all NTT fields, standard circuits, hash functions, numbers of shares and proofs, vectors, nonces, randomness, keys and contexts", "why_tests_cant": "This is why circuits with joint randomness need a larger field or more proofs; the document says so without deriving it.", "anchors": ["poc/vdaf_poc/vdaf_prio3.py: shard, verify_init, verifier_shares_to_message", "poc/vdaf_poc/flp_bbcggi19.py: prove, query, decide, SumVec", "draft-irtf-cfrg-vdaf.md:6207-6244"]}
{"id": "C100", "title": "The refused test points are those that would reveal the measurement", "statement": "query() raises ValueError exactly if the test point of a gadget is a power of the root of unity at whose powers the wire polynomials carry the inputs of the calls, and on all other inputs computes what it would without the check. Without the check, the test point that is the power one above the number of a call would make the sum of the verifier shares show every element of the encoded measurement which that call reads, at a fixed position and up to a fixed constant, whatever the shares, proof and joint randomness are; every element is read by some call. At the remaining refused points the wire entries are the random wire seeds (power 0) or zero (powers beyond the last call).", "quantifier": "all NTT fields, standard circuits, measurement and proof vectors, shares, joint randomness and query randomness", "why_tests_cant": "The document states that leaving out the check breaks zero-knowledge; this shows what leaks and that the check refuses no more than the domain of interpolation.", "anchors": ["poc/vdaf_poc/flp_bbcggi19.py: query", "draft-irtf-cfrg-vdaf.md:6035-6055"]}
{"id": "C101", "title": "The star topology", "statement": "Verification in the star topology, in which one of any number of Aggregators gathers the encoded verifier shares of the others and broadcasts the encoded verifier message, computes what direct verification of the decoded shares computes. For Prio3 and whatever strings were uploaded, the Aggregators obtain output shares exactly if all strings decode and the report verifies; these shares then add up to the truncation of a vector that the FLP verifier accepts, and the Collector obtains the decoding of the sum of these vectors over the reports that verify. With honest Clients the Collector obtains the aggregate result of the measurements of the reports whose query randomness is not refused, for each of the five circuits. For Poplar1, which takes two rounds, the star with one Helper computes what direct execution computes.", "quantifier": "all VDAFs whose messages survive encoding; Prio3 with 2 to 255 Aggregators, all uploaded strings, batches, contexts, verification keys, hash functions; Poplar1", "why_tests_cant": "The document describes this topology for more than two Aggregators in prose only and the code has no implementation or test of it.", "anchors": ["poc/vdaf_poc/vdaf.py: verify_init, verify_next, verifier_shares_to_message and the encoders and decoders", "poc/vdaf_poc/vdaf_prio3.py", "poc/vdaf_poc/vdaf_poplar1.py", "draft-irtf-cfrg-vdaf.md:2029-2050"]}
{"id": "C102", "title": "What the heavy hitters protocol reveals", "statement": "When the heavy hitters protocol is run on a batch of honest clients, the aggregation parameters and the answers that the Collector sees are determined by the counts of the nodes of the prefix tree (the strings of one bit and the extensions by one bit of the strings with which at least T of the clients' strings start) and determine all of them: two batches look the same, under any verification keys and contexts, exactly if these counts agree. So the Collector also learns counts of strings that are not heavy, and with threshold 1 or less it learns the whole batch up to its order.", "quantifier": "all pairs of batches of honest clients, thresholds, BITS up to 2^16, contexts, verification keys, any hash function and block cipher; batches smaller than the modulus of the inner field", "why_tests_cant": "The document says that the prefix tree leaks and that it can leak much about unpopular inputs; this is the exact extent.", "anchors": ["poc/vdaf_poc/vdaf_poplar1.py: all methods", "poc/vdaf_poc/vdaf.py: run_vdaf", "draft-irtf-cfrg-vdaf.md:4741-4786,6102-6114"]}
{"id": "C103", "title": "A batch of Prio3 reveals the aggregate result and nothing else", "statement": "All Aggregators but one pool their shares of every report of a batch and the verifier shares that all exchange, and the Collector adds the aggregate share of the remaining Aggregator. For ideal random choices of honest Clients this view is distributed independently of the measurements given their sum: for two batches of valid measurements with the same aggregate result every view of the first arises from exactly one choice of the coins for the second; batches with different sums never give the same view. What run_vdaf() does with a batch is such a view, with the coins that the XOF expands, the real aggregate shares, and the result decoded from the sum.", "quantifier": "all NTT fields, valid circuits with linear truncation (in particular the five of the library), numbers of Aggregators below the modulus and of proofs, batches, accepted query and joint randomness, coins; for run_vdaf() all measurements, nonces, randomness, keys and contexts", "why_tests_cant": "This is the privacy goal of the document for honest Aggregators: the attacker learns nothing beyond what it can deduce from the aggregate result.", "anchors": ["poc/vdaf_poc/vdaf_prio3.py: shard, verify_init, agg_init, agg_update, unshard", "poc/vdaf_poc/flp_bbcggi19.py: prove, query, truncate", "poc/vdaf_poc/vdaf.py: run_vdaf", "draft-irtf-cfrg-vdaf.md:5966-5975"]}
{"id": "C104", "title": "A batch of Poplar1 reveals the answers and nothing else", "statement": "One Aggregator pools its view of every report of a batch (the public shares and the verifier shares of both Aggregators for each aggregation parameter used) with the Collector, who has the aggregate shares of the other Aggregator. For ideal random choices of honest Clients this view is distributed independently of the measurements given the answers, the numbers of measurements that start with each queried prefix modulo the modulus of the level: for two batches with the same answers every view of the first arises from exactly one choice of the coins for the second, and batches with different answers never give the same view. What shard(), the verification methods and the aggregation methods do with a batch is such a view, with the coins that the XOF expands and the real aggregate share of the other Aggregator.", "quantifier": "all batches, sequences of aggregation parameters with distinct prefixes of the length of their level, either Aggregator, keys, nonces and verification randomness of the Aggregator, coins; for the real run one aggregation parameter, all measurements, nonces, randomness, keys and contexts; any hash function and block cipher for which rejection sampling ends", "why_tests_cant": "This is the privacy goal of the document for Poplar1 when the Client and the other Aggregator are honest.", "anchors": ["poc/vdaf_poc/vdaf_poplar1.py: shard, verify_init, verify_next, agg_init, agg_update", "poc/vdaf_poc/idpf_bbcggi21.py: gen, eval", "draft-irtf-cfrg-vdaf.md:5966-5975,6102-6114"]}
{"id": "C105", "title": "What a changed public share of Prio3 reveals", "statement": "If the Leader hands the Helpers the public share of an honest report with its own joint randomness part replaced, the Helpers derive joint randomness that the Leader can compute, and the verifier shares they send add up with the Leader's own to verifiers that miss the gadget's value by a linear form in the encoded measurement, with coefficients the Leader knows; if the Leader sends its own share, computed with that joint randomness, and the replaced part, the Helpers accept exactly if these forms vanish, so that the outcome depends on the measurement. They always vanish for an all-zero encoding and for the joint randomness of the Client. For a single bit the verifier and the outcome each reveal the measurement. The output shares never depend on the public share, and without joint randomness nothing does. If all Aggregators are honest and accept, each with a public share of its own, these agree with the parts that the Aggregators derive, except for the entry an Aggregator replaces anyway, and all use the same joint randomness, unless the derivation of the seed collides.", "quantifier": "all NTT fields, the circuits of the library with joint randomness, valid measurements, replaced parts, contexts, nonces, randomness, keys, numbers of Aggregators (2 to 255) and proofs, any hash function", "why_tests_cant": "The document assumes that messages from honest Clients to honest Aggregators cannot be forged; this shows that privacy needs the assumption for the public share, too, though it is not secret.", "anchors": ["poc/vdaf_poc/vdaf_prio3.py: verify_init, verify_next, verifier_shares_to_message", "poc/vdaf_poc/flp_bbcggi19.py: query, decide", "draft-irtf-cfrg-vdaf.md:3027-3033,3121-3129,5968-5973"]}
{"id": "C106", "title": "What the IDPF keys of a malicious Client can evaluate to", "statement": "For any keys and any public share, the evaluations of the two Aggregators at a prefix add up to w0 - w1 + (c0 - c1) * w, where w is the payload of the correction word of the level, and the control bits c0, c1 and the converted values w0, w1 of the Aggregators do not depend on payloads. Where the control bits differ, every value is reached with exactly one payload, but it determines the values at all other prefixes of the level, so that a second value cannot be chosen by the payload. Below a node where seeds and control bits agree all values are zero. For any keys, seeds and prefix there are control bits of the correction words such that the Aggregators' control bits differ at both extensions of the prefix. A report that is honest but for a public share that evaluates at two prefixes to what the honest one has at the measurement's, and to zero at the other candidates, is accepted for every verification key and counted for either of the two, unless both are candidates. So nothing but the XOF prevents two votes at an inner level: with a block cipher that is the identity, a report of Poplar1 is counted for either prefix of level 0, and rejected only if both are candidates.", "quantifier": "all keys, public shares, contexts, nonces, levels, prefixes, numbers of bits and value lengths; any hash function and block cipher for which rejection sampling ends", "why_tests_cant": "The document asks applications not to rely on counts at intermediate levels because the IDPF is not extractable there; this is how much control a Client has.", "anchors": ["poc/vdaf_poc/idpf_bbcggi21.py: eval, eval_next, extend, convert", "poc/vdaf_poc/vdaf_poplar1.py: verify_init, verify_next", "draft-irtf-cfrg-vdaf.md:6116-6150"]}
{"id": "C107", "title": "Who knows all measurements but one learns that one", "statement": "From the result of a batch and all its measurements but one, whatever they are and however many, the remaining measurement follows: for Prio3Count and Prio3Sum it is the result minus the others' sum modulo the field size, for Prio3SumVec the same in every entry, for Prio3Histogram it is the only bucket whose count minus the others' is one modulo the field size, for Prio3MultihotCountVec the entries where this is so are its ones, and the result of Poplar1 shows for each candidate prefix whether the remaining string starts with it.", "quantifier": "all batches of valid measurements, nonces, randomness, keys, contexts, parameters of the circuits, numbers of Aggregators (2 to 255), levels and candidate prefixes; any hash function and block cipher", "why_tests_cant": "The document says that VDAFs do not mitigate Sybil attacks: an attacker that chooses all other measurements of a batch learns the one of the honest Client.", "anchors": ["poc/vdaf_poc/vdaf_prio3.py: Prio3Count, Prio3Sum, Prio3SumVec, Prio3Histogram, Prio3MultihotCountVec", "poc/vdaf_poc/vdaf_poplar1.py: unshard", "poc/vdaf_poc/vdaf.py: run_vdaf", "draft-irtf-cfrg-vdaf.md:6012-6018"]}
{"id": "C108", "title": "The IDPF's node expansion loses nothing and keeps control bits out of the seeds", "statement": "extend splits two seeds' worth of output of the XOF (XofFixedKeyAes128 on inner levels, XofTurboShake128 on the last; tag format_dst(1, 0, 0) and the application context; binder the nonce) into two seeds whose lowest bit of the first byte is zero and two control bits, and the XOF output is recovered by putting the bits back. The seed of every correction word that gen (and so Poplar1's shard) puts into a public share has that bit zero.", "quantifier": "all IDPF instances, levels, seeds of KEY_SIZE bytes, contexts, nonces; all arguments for which gen or shard succeeds", "why_tests_cant": "If the control bit stayed in the seed, the seed correction words would publish the XOR of the Aggregators' control bits on the branch not taken; comparing it with the two published control bit corrections gives away the bit of the measurement whenever those differ.", "anchors": ["poc/vdaf_poc/idpf_bbcggi21.py:265-287", "poc/vdaf_poc/idpf_bbcggi21.py:95-144", "poc/vdaf_poc/idpf_bbcggi21.py:306-313"]}
