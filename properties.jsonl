{"id": "C01", "title": "Hex decoding inverts hex printing", "statement": "For every byte string b, decoding its hexadecimal text (any mix of upper and lower case digits) gives back exactly b; an odd number of digits is read as if a leading 0 were present; any character outside [0-9a-fA-F] makes the call abort instead of producing bytes; a destination smaller than the decoded length aborts.", "quantifier": "every byte string of every length, every choice of digit case, every non-hex character position", "why_tests_cant": "A test vector covers a handful of strings; the space of lengths, case mixes and bad-character positions is unbounded.", "anchors": ["include/ack/utils.hpp: from_hex(char), from_hex(string_view, byte span), from_hex(string_view) -> bytes, from_hex<N>"]}
{"id": "C02", "title": "memxor is an exact byte-wise xor of a prefix", "statement": "memxor(dst, src, num) replaces dst[i] by dst[i] xor src[i] for exactly the first min(num,|dst|,|src|) positions, leaves every other byte of dst unchanged, never reads or writes out of bounds, and applying it twice restores dst.", "quantifier": "all buffer contents, all three lengths including those not multiples of the 16-byte block", "why_tests_cant": "The block loop and the tail loop interact with every residue of the length; tests sample few residues and few contents.", "anchors": ["include/ack/utils.hpp: memxor"]}
{"id": "C03", "title": "Byte-view serialisation round-trips", "statement": "Writing any sequence of byte views to a datastream and reading the same number of views back yields the same sequence and consumes exactly the bytes written; a declared length running past the end of the stream aborts rather than yielding a view.", "quantifier": "all lists of byte strings, all trailing stream contents, all truncated streams", "why_tests_cant": "Length prefix width changes at 2^7, 2^14, ...; truncations at every position must be rejected; tests enumerate only a few.", "anchors": ["include/ack/types.hpp: operator<<(DataStream&, const bytes_view&), operator>>(DataStream&, bytes_view&)"]}
{"id": "C04", "title": "Buffers behave as bounded arrays", "statement": "A fixed buffer of capacity N and a growable buffer keep every previously stored element when resized (up to the smaller of the two sizes), a fixed buffer refuses exactly the sizes above N and is then unchanged, an element access outside the current size aborts, copies are equal to and independent of the original, and this holds after every sequence of operations.", "quantifier": "every sequence of resize/clear/write/copy operations on every buffer", "why_tests_cant": "The growth rule of the growable buffer depends on the whole history of sizes; tests run a few histories.", "anchors": ["include/ack/buffer.hpp: fixed_buffer, flexbuffer"]}
{"id": "C05", "title": "sha384 equals FIPS 180-4 SHA-384", "statement": "For every byte message shorter than 2^61 bytes the digest returned is the FIPS 180-4 SHA-384 digest of that message.", "quantifier": "all messages of all lengths, in particular every residue of the length modulo the 128-byte block", "why_tests_cant": "Padding behaves differently for each residue of length mod 128; vectors sample few residues and cannot cover contents.", "anchors": ["include/ack/sha.hpp: sha384, detail::sha_compute"]}
{"id": "C06", "title": "SHA-3 and SHAKE equal FIPS 202", "statement": "For every byte message, sha3_256, sha3_384, sha3_512 return the FIPS 202 digest; shake128/shake256 return exactly the requested number of output bytes of the FIPS 202 extendable output, for every requested size.", "quantifier": "all messages, all requested output lengths", "why_tests_cant": "Known-answer tests fix a few messages and a few output lengths; multi-block absorb/squeeze boundaries are unbounded in number.", "anchors": ["include/ack/keccak.hpp: keccak_f, keccak, sha3_256, sha3_384, sha3_512, shake128, shake256, shake128_fixed, shake256_fixed"]}
{"id": "C07", "title": "mgf1 equals RFC 8017 MGF1", "statement": "For every seed and every requested length the mask is the first masklen bytes of Hash(seed||0)||Hash(seed||1)||... with 4-byte big-endian counters, and exactly that many bytes are written.", "quantifier": "all hash functions with the declared digest size, all seeds, all mask lengths", "why_tests_cant": "Partial last block and counter encoding beyond one byte are not reached by signature test vectors.", "anchors": ["include/ack/mgf.hpp: mgf1"]}
{"id": "C08", "title": "PKCS#1 v1.5 verification accepts exactly the RFC 8017 encoding", "statement": "For a public key (n,e) and hash, verification returns true iff the signature has the length of n, represents an integer below n, and s^e mod n equals the unique EMSA-PKCS1-v1_5 encoding 00 01 FF..FF 00 || DigestInfo || digest with at least eight FF bytes.", "quantifier": "all moduli (top byte nonzero), exponents, signatures and digests of the four supported hash types", "why_tests_cant": "Acceptance must be exact: tests show some accepted and some rejected signatures, not the absence of other accepted encodings (Bleichenbacher-type forgeries).", "anchors": ["include/ack/rsa.hpp: detail::rsassa_pkcs1_v1_5_verify, rsa_1_5_t_generator, verify_rsa_sha1/sha256/sha384/sha512"]}
{"id": "C09", "title": "PSS verification accepts exactly what EMSA-PSS-VERIFY accepts", "statement": "For a modulus whose bit length is a multiple of 8, PSS/MGF1 verification returns true iff RFC 8017 EMSA-PSS-VERIFY with the same hash and salt length (the digest length when none is given) says consistent.", "quantifier": "all moduli, signatures, digests, salt lengths including absent", "why_tests_cant": "Exactness of a multi-step decision over unbounded inputs; negative space cannot be sampled.", "anchors": ["include/ack/rsa.hpp: detail::rsassa_pss_mgf1_verify, verify_rsa_pss_*"]}
{"id": "C10", "title": "Signature representative range check", "statement": "The signature representative check accepts a byte string iff it denotes an integer smaller than the modulus (both big-endian), for byte strings of equal length with no leading zero in the modulus.", "quantifier": "all pairs of byte strings", "why_tests_cant": "Comparison must be right at every position of the first difference and for every number of leading zeros.", "anchors": ["include/ack/rsa.hpp: detail::is_s_valid"]}
{"id": "C11", "title": "Software modular exponentiation is exact", "statement": "The portable RSA exponentiation returns the big-endian bytes of base^exponent mod modulus for every odd modulus of whole words, base smaller than modulus and odd exponent with at least two bits below 2^32.", "quantifier": "all moduli sizes and contents, all bases, all such exponents", "why_tests_cant": "Montgomery reduction has rare carry/correction paths (probability about 2^-32) that random tests do not reach.", "anchors": ["include/ack/c/powm.h: rsa_gen_key_prop, montgomery_mul, pow_mod, rsa_mod_exp_sw, powm"]}
{"id": "C12", "title": "RSA verification never accepts malformed sizes", "statement": "Whatever the key and digest, a signature whose length differs from the modulus length is rejected, and so is any signature when the modulus is too short to hold the encoding; no out-of-bounds access occurs.", "quantifier": "all keys, signatures, digests", "why_tests_cant": "Every combination of lengths has to be rejected; tests pick a few.", "anchors": ["include/ack/rsa.hpp: rsassa_pkcs1_v1_5_verify, rsassa_pss_mgf1_verify, is_s_valid"]}
{"id": "C13", "title": "Big-integer addition, subtraction and comparison are exact", "statement": "For big integers with a spare word of capacity beyond the larger operand (always available to the growable bignum), x+y, x-y denote the mathematical sum and difference for all sign combinations; ==, <, <=, >, >= order them as integers; results are canonical (no leading zero words).", "quantifier": "all integers of all word lengths and signs, all capacities", "why_tests_cant": "Carry/borrow chains over all word positions and all four sign cases; unbounded sizes.", "anchors": ["include/ack/bigint.hpp: add, sub, compare, uadd, usub, uadd1, usub1, _add, operator+,-,==,<,<=,>,>="]}
{"id": "C14", "title": "Big-integer multiplication is exact", "statement": "x*y denotes the mathematical product whenever the product fits the capacity, including when the destination is one of the operands; the small-factor variants agree with the general one.", "quantifier": "all integers, all word lengths and signs", "why_tests_cant": "Carry propagation in the schoolbook loops for all sizes; aliasing combinations.", "anchors": ["include/ack/bigint.hpp: mul, mulu1, muls1, sqr, detail::mul_nm"]}
{"id": "C15", "title": "Division with remainder is exact", "statement": "For y != 0 quotient and remainder satisfy x = q*y + r with |r|<|y| (truncated or floored exactly as documented by the operation), and division by zero aborts.", "quantifier": "all dividends and divisors of all sizes and signs", "why_tests_cant": "The reciprocal estimate loop has rare correction paths; its termination for all inputs is itself not testable.", "anchors": ["include/ack/bigint.hpp: detail::div, div_full_bit, div_small, div1, udiv, div, mod, div_mod, quot_rem"]}
{"id": "C16", "title": "Shifts and bit queries are exact", "statement": "x << n denotes x*2^n when it fits, x >> n denotes the truncated quotient by 2^n, test_bit(i) is the i-th binary digit of |x| and bit_length is the position of the highest set bit plus one (1 for zero).", "quantifier": "all integers, all shift amounts (multiples of the word size or not), all bit positions", "why_tests_cant": "Every residue of the shift modulo the word size for every length.", "anchors": ["include/ack/bigint.hpp: shl, shr, test_bit, bit_length, detail::shift_left, shift_right"]}
{"id": "C17", "title": "Big-endian byte import/export round-trips", "statement": "Constructing from big-endian bytes gives the denoted integer (whatever the number of leading zero bytes); to_bytes gives the minimal big-endian encoding; to_bytes then construct is the identity on non-negative integers; exporting into a buffer fails exactly when it is too small.", "quantifier": "all byte strings, all integers", "why_tests_cant": "Byte/word boundary residues and leading zeros, unbounded lengths.", "anchors": ["include/ack/bigint.hpp: set_bytes, get_bytes, to_bytes, byte_length, detail::convert_array_as, bigint(bytes_view)"]}
{"id": "C18", "title": "NAF recoding is a valid signed-digit form", "statement": "For every non-negative integer k, to_naf/to_rnaf return digits in {-1,0,1} whose weighted sum is k, with no two adjacent non-zero digits, the most significant digit non-zero, and to_rnaf is the reversal of to_naf.", "quantifier": "all non-negative integers of every size", "why_tests_cant": "The recoding carries through arbitrarily long runs; only an inductive argument covers all scalars.", "anchors": ["include/ack/bigint.hpp: to_naf, to_rnaf"]}
{"id": "C19", "title": "Modular inverse is exact", "statement": "For 0<x<m, modinv(x,m) returns the unique y in [0,m) with x*y = 1 mod m when gcd(x,m)=1 and signals failure (zero) otherwise.", "quantifier": "all moduli m>1 and all residues x", "why_tests_cant": "The loop runs a data-dependent number of Euclid steps with sign tracking; tests sample.", "anchors": ["include/ack/bigint.hpp: modinv"]}
{"id": "C20", "title": "gcd and lcm are exact", "statement": "gcd(x,y) is the greatest common divisor and lcm(x,y) the least common multiple of non-negative integers; both terminate.", "quantifier": "all pairs of non-negative integers", "why_tests_cant": "Data-dependent Euclid loops and in-place aliasing inside lcm.", "anchors": ["include/ack/bigint.hpp: gcd, lcm"]}
{"id": "C21", "title": "Modular and plain powers are exact", "statement": "modexp(x,y,m) = x^y mod m in [0,m) and pow(x,y) = x^y for all non-negative exponents; small special-case exponents agree with the general window algorithm.", "quantifier": "all bases, exponents and moduli", "why_tests_cant": "The windowed algorithm has branches per exponent length and per window content; special cases are separate code.", "anchors": ["include/ack/bigint.hpp: pow, modexp, _pow"]}
{"id": "C22", "title": "jacobi computes the Jacobi symbol", "statement": "For odd n>0 and any non-negative m, jacobi(m,n) is the Jacobi symbol (m/n); for prime n it is 1/-1/0 exactly for non-zero squares / non-squares / multiples of n.", "quantifier": "all odd n, all m", "why_tests_cant": "Correctness rests on quadratic reciprocity; samples cannot establish it.", "anchors": ["include/ack/bigint.hpp: jacobi"]}
{"id": "C23", "title": "Results are canonical", "statement": "Every value produced by the arithmetic operations has no leading zero words, at least one word, words in range, and zero is never negative.", "quantifier": "every sequence of operations on canonical inputs", "why_tests_cant": "Canonicity is an invariant over arbitrary operation histories.", "anchors": ["include/ack/bigint.hpp: trim, _add, div_mod, neg, operators"]}
{"id": "C24", "title": "Bitwise and/or are exact", "statement": "or_bit/and_bit of non-negative big integers denote the bitwise or/and for operands of any (different) lengths.", "quantifier": "all pairs of non-negative integers", "why_tests_cant": "Length-mismatch tails for all lengths.", "anchors": ["include/ack/bigint.hpp: or_bit, and_bit, oru1, andu1"]}
{"id": "C25", "title": "Fixed-capacity results are never silently wrong", "statement": "For fixed-capacity integers every operation either returns the exact result or aborts/reports failure; it never returns a wrong number.", "quantifier": "all operands of all capacities", "why_tests_cant": "Overflow exactly at capacity happens on a vanishing fraction of inputs.", "anchors": ["include/ack/bigint.hpp: uadd, mul, shl, fixed_bigint; include/ack/buffer.hpp: fixed_buffer::resize"]}
{"id": "C26", "title": "Single-word operations agree with the general ones", "statement": "x op k for a machine integer k equals x op bigint(k) for + - * / % compare, for all signed and unsigned k including the minimum value.", "quantifier": "all big integers x, all machine integers k", "why_tests_cant": "2^32 or 2^64 values of k times unbounded x.", "anchors": ["include/ack/bigint.hpp: adds1, addu1, subs1, subu1, muls1, mulu1, divs1, mods1, compares1, compareu1, operator%="]}
{"id": "C27", "title": "Field operations are arithmetic modulo p", "statement": "For field elements with reduced representatives, +, -, *, square and negation return the reduced representative of the corresponding operation modulo p, for any modulus p; results stay reduced along any sequence of operations.", "quantifier": "all moduli p>1, all pairs of elements, all expression trees", "why_tests_cant": "Unbounded moduli and operand pairs, boundary wrap-around at p.", "anchors": ["include/ack/fp.hpp: fp_add, fp_sub, fp_mul, fp_neg, fp_element::add/sub/mul/sqr/neg"]}
{"id": "C28", "title": "Field inversion and division are exact", "statement": "For prime p and non-zero b, inv(b)*b = 1 and (a/b)*b = a; inverting or dividing by zero (or, for a composite modulus, by a non-invertible element) aborts.", "quantifier": "all primes p, all elements", "why_tests_cant": "All residues; rests on termination and correctness of the inverse loop.", "anchors": ["include/ack/fp.hpp: fp_div, fp_element::inv, div"]}
{"id": "C29", "title": "Field square roots are exact", "statement": "For prime p, sqrt(a) returns r with r^2 = a whenever a is a square and reports no root (zero) exactly when a is a non-residue.", "quantifier": "all primes p (both residue classes mod 4), all field elements", "why_tests_cant": "Tonelli-Shanks has a data-dependent loop nest; secp curves exercise only the p = 3 mod 4 shortcut.", "anchors": ["include/ack/fp.hpp: fp_sqrt, fp_element::sqrt"]}
{"id": "C30", "title": "Scalar-on-the-left operators keep operand order", "statement": "For a field element f and a scalar k the expressions k-f and k/f denote k minus f and k divided by f.", "quantifier": "all field elements and scalars", "why_tests_cant": "An operator that is wrong only for non-commutative operations and unused in tests stays invisible.", "anchors": ["include/ack/fe.hpp: operator-(int,const field_element&), operator-(bigint,...), operator/(int,...)"]}
{"id": "C31", "title": "Affine point addition is the chord-and-tangent law", "statement": "Addition, doubling and negation of affine points on y^2=x^3+ax+b give points on the same curve, with the identity neutral, P+(-P)=identity, P+Q=Q+P, and the group is associative.", "quantifier": "all primes p>3, all non-singular curves, all points", "why_tests_cant": "Closure and associativity are universally quantified algebraic identities.", "anchors": ["include/ack/ec.hpp: ec_point_fp::add, doubled, inverted, is_on_curve, is_identity"]}
{"id": "C32", "title": "Homogeneous projective arithmetic agrees with affine", "statement": "Converting the homogeneous-coordinate sum/double of two points to affine equals the affine sum/double of their affine forms, for all representatives; equality ignores the scaling factor.", "quantifier": "all fields, curves, points and scaling factors", "why_tests_cant": "Exceptional cases (equal, opposite, identity) and every scaling factor.", "anchors": ["include/ack/ec.hpp: ec_point_fp_proj::add, doubled, to_affine, operator=="]}
{"id": "C33", "title": "Jacobian arithmetic agrees with affine", "statement": "Converting the Jacobian-coordinate sum/double of two points to affine equals the affine sum/double, for every representative including the mixed-coordinate fast paths and the special handling of a=0 and a=-3.", "quantifier": "all fields, curves, points and scaling factors", "why_tests_cant": "Several fast paths chosen by runtime values of Z and a.", "anchors": ["include/ack/ec.hpp: ec_point_fp_jacobi::add, doubled, addex, add_z_1, add_z2_1, add_z_ne, to_affine, operator=="]}
{"id": "C34", "title": "Scalar multiplication is repeated addition", "statement": "k*P equals P added to itself k times for every non-negative k in each coordinate system.", "quantifier": "all scalars, all points, all curves", "why_tests_cant": "Scalars range over 2^256 and beyond; the recoded loop is only correct by induction.", "anchors": ["include/ack/ec.hpp: ec_point_fp::mul, ec_point_fp_proj::mul, ec_point_fp_jacobi::mul"]}
{"id": "C35", "title": "Simultaneous multiplication computes aP+bQ", "statement": "ec_mul_add_fast(a,P,b,Q) equals a*P + b*Q for all non-negative scalars of any (different) lengths.", "quantifier": "all pairs of scalars, all pairs of points including equal, opposite and identity", "why_tests_cant": "Interleaved recoded digits of different lengths; joint space is 2^512.", "anchors": ["include/ack/ec.hpp: ec_mul_add_fast"]}
{"id": "C36", "title": "Point encoding round-trips", "statement": "Decoding the compressed or uncompressed encoding of any valid curve point returns that point; the identity encodes to a single zero byte and back; encodings have the fixed SEC1 length.", "quantifier": "all curves, all points (including coordinates with leading zero bytes)", "why_tests_cant": "Leading-zero coordinates have probability 2^-8k; all points must be covered.", "anchors": ["include/ack/ec.hpp: encode_point, decode_point, decompress_point, compute_y"]}
{"id": "C37", "title": "Decoding never yields a point off the curve", "statement": "decode_point either aborts or returns the identity or a point on the curve, for every byte string.", "quantifier": "all byte strings", "why_tests_cant": "Adversarial byte strings are unbounded; invalid-curve attacks live in the untested ones.", "anchors": ["include/ack/ec.hpp: decode_point, decompress_point, make_point"]}
{"id": "C38", "title": "Decompression picks the root with the requested parity", "statement": "decompress_point(x, odd) returns the unique point with that x and y parity, or reports failure exactly when x is not an abscissa of the curve.", "quantifier": "all x, both parities, all curves", "why_tests_cant": "Needs the square root to be exact for all field elements.", "anchors": ["include/ack/ec.hpp: compute_y, decompress_point"]}
{"id": "C39", "title": "ECDSA verification implements the standard equation", "statement": "ecdsa_verify(Q,msg,r,s) is true iff 1<=r,s<n and the x-coordinate of (e/s)G+(r/s)Q reduced mod n equals r with that point not the identity, where e is the leftmost bits of the digest.", "quantifier": "all curves with prime order, keys, digests and signature pairs", "why_tests_cant": "The acceptance set must be exact; forgeries live outside sampled inputs.", "anchors": ["include/ack/ecdsa.hpp: ecdsa_verify, assert_ecdsa"]}
{"id": "C40", "title": "ECDSA rejects out-of-range signatures", "statement": "Any r or s equal to 0 or >= n is rejected before any curve arithmetic, whatever the key, and verification never divides by zero.", "quantifier": "all keys, digests and integers r,s", "why_tests_cant": "All out-of-range values including unreduced multiples and negatives.", "anchors": ["include/ack/ecdsa.hpp: ecdsa_verify"]}
{"id": "C41", "title": "Recovered keys verify", "statement": "If ecdsa_recover returns a valid key Q for (msg,r,s,id) then ecdsa_verify(Q,msg,r,s) holds; and the key that produced a signature is recovered by one of the recovery ids.", "quantifier": "all curves, messages, signatures, recovery ids", "why_tests_cant": "Relation between two algorithms on all inputs.", "anchors": ["include/ack/ecdsa.hpp: ecdsa_recover, ecdsa_verify"]}
{"id": "C42", "title": "Digest truncation follows FIPS 186", "statement": "The integer derived from the digest is the leftmost min(bitlen(n), 8*hashlen) bits of it.", "quantifier": "all digests of all lengths, all orders n", "why_tests_cant": "Only orders whose bit length is not a multiple of 8 with long digests expose the difference.", "anchors": ["include/ack/ecdsa.hpp: ecdsa_verify, ecdsa_recover"]}
{"id": "C43", "title": "Key and span equality is structural", "statement": "Two keys compare equal iff all their components are equal; spans compare equal iff same length and same elements.", "quantifier": "all keys and spans", "why_tests_cant": "A forgotten or extra field only shows on pairs differing exactly there.", "anchors": ["include/ack/public_key.hpp: operator==; include/ack/span_ext.hpp: operator=="]}
{"id": "C44", "title": "Named curves are consistent", "statement": "For each named curve the generator lies on the curve, a,b,gx,gy are reduced, the curve is non-singular, and the order/cofactor satisfy the Hasse interval.", "quantifier": "the eight named curves (finite)", "why_tests_cant": "Finite facts; the compile-time tests do not state them as facts on which the group theorems can be instantiated.", "anchors": ["include/ack/ec_curve.hpp"]}
{"id": "C45", "title": "Constant-time helpers compute their predicates", "statement": "The branch-free NOT/MUX/EQ/NEQ/GT helpers and bit-length agree with the ordinary comparisons on all 32-bit words.", "quantifier": "all pairs of 32-bit words", "why_tests_cant": "2^64 pairs.", "anchors": ["include/ack/c/powm.h: NOT, MUX, EQ, NEQ, GT, BIT_LENGTH, br_divrem"]}
{"id": "C46", "title": "Textbook ECDSA signatures verify", "statement": "If (r,s) is produced from a private key d and a nonce k as FIPS 186 prescribes (r = x(kG) mod n, ks = e + rd mod n) then ecdsa_verify accepts it under the public key dG.", "quantifier": "all usable curves, private keys, nonces, digests", "why_tests_cant": "Completeness over all keys, nonces and digests; a rejected honest signature may occur only for rare abscissas between n and p.", "anchors": ["include/ack/ecdsa.hpp: ecdsa_verify"]}
{"id": "C47", "title": "Curve parameter verification accepts exactly sound domain parameters", "statement": "verify() of a curve returns true exactly when p > 3, 0 <= a, b < p, the curve is non-singular, the generator is a point of the curve killed by n, and the cofactor h is consistent with n and p.", "quantifier": "all curve objects", "why_tests_cant": "The tests only verify good named curves; what is accepted of wrong parameters is never exercised.", "anchors": ["include/ack/ec.hpp: ec_curve_fp::verify"]}
{"id": "C48", "title": "Public keys from private scalars", "statement": "generate_point(x) returns xG in each of the three point classes for 0 < x < n and aborts for every other integer; on a curve whose order n is prime different scalars give different keys. make_point(x, y) returns the point (x, y), and with verification asked for it aborts exactly when it is not a valid point of the curve.", "quantifier": "all curve objects (for affine points those with b <> 0; b = 0 is C64), scalars (negative, zero, n and above included), coordinates", "why_tests_cant": "Tests sample a few scalars; the boundary values and the claim that no two scalars share a key are about all of them.", "anchors": ["include/ack/ec.hpp: ec_curve_fp::generate_point", "include/ack/ec.hpp: make_point"]}
{"id": "C49", "title": "ECDSA verification cannot tell s from n - s", "statement": "For every key, digest and r the answer of ecdsa_verify on (r, s) and on (r, n - s) is the same, so a caller must not take a signature as a unique identifier.", "quantifier": "all usable curves, keys of the curve, digests, r, s", "why_tests_cant": "Malleability is a symmetry over all signatures; a test shows it for single ones.", "anchors": ["include/ack/ecdsa.hpp: ecdsa_verify"]}
{"id": "C50", "title": "The named curves have prime fields and prime order", "statement": "p and n of the eight named curves are prime; over the field of p elements each curve is non-singular, contains G, has no point of order two, and n annihilates every point of the curve, not only the multiples of G; the run-time verify() accepts the declared object.", "quantifier": "the eight declared curves, both integer types; every point of each curve", "why_tests_cant": "The order of the whole group cannot be observed by sampling points, and primality cannot be tested by running the library.", "anchors": ["include/ack/ec_curve.hpp"]}
{"id": "C51", "title": "ECDSA and the point codec on the named curves, unconditionally", "statement": "On each of the eight declared curves, without any hypothesis about the curve: ecdsa_verify accepts exactly the signatures the standard accepts, honest signatures verify, recovery returns keys that verify and finds every verifying key, and encoding followed by decoding returns every point.", "quantifier": "eight curves, both integer types, all keys, digests, signatures, points", "why_tests_cant": "Quantifies over all keys and signatures of 160 to 521 bits.", "anchors": ["include/ack/ec_curve.hpp", "include/ack/ecdsa.hpp: ecdsa_verify, ecdsa_recover", "include/ack/ec.hpp: encode_point, decode_point, decompress_point"]}
{"id": "C52", "title": "The ECDSA actions of the example contract check what they claim to check", "statement": "Each of the eight ECDSA actions, from the byte strings of the transaction: for every input it succeeds or aborts; when the key satisfies the curve equation it succeeds exactly if the strings fit the integer type, the coordinates are reduced and (r, s) is a valid signature for the digest of the message (SHA-384 as in FIPS 180-4). Refuted: that success implies a key on the curve; the actions build the key without verification, and for nearly every message a key off the curve is accepted.", "quantifier": "eight actions, both integer types, all byte strings, all hash functions of the host with the right digest size", "why_tests_cant": "All keys, messages and signatures; the refutation constructs a forged key for every digest but two.", "anchors": ["examples/helloack/src/helloack.cpp:16-94", "include/ack/ecdsa.hpp: assert_ecdsa", "include/ack/ec.hpp: make_point"]}
{"id": "C53", "title": "The RSA actions of the example contract check what they claim to check", "statement": "From the byte strings of the transaction, each PKCS#1 v1.5 action succeeds exactly when the signature is valid by RFC 8017 for the digest of the message and aborts otherwise, over any exact exponentiation primitive and over the one of powm.h; the PSS actions likewise for moduli filling their top byte. Over the exponentiation of powm.h the outcome is determined for every public exponent of a transaction.", "quantifier": "eight actions, all keys, messages, signatures, hash functions of the host", "why_tests_cant": "All messages, moduli and signatures.", "anchors": ["examples/helloack/src/helloack.cpp:96-158", "include/ack/rsa.hpp: assert_rsa_*, assert_rsa_pss_*"]}
{"id": "C54", "title": "Point operations and verification are defined off the curve", "statement": "Addition, doubling, negation, multiplication, mul_add and is_on_curve in all three coordinate systems, and ecdsa_verify, return (no abort, no undefined behaviour, reduced coordinates) for every point object with reduced coordinates, whether or not it lies on the curve; ecdsa_verify accepts only with a non-identity key and r, s in range. Refuted: that an accepted key lies on the curve.", "quantifier": "all coordinates, scalars, digests, signatures", "why_tests_cant": "Off-curve inputs are not generated by tests built from valid keys, and divisions by zero would need specific coordinates.", "anchors": ["include/ack/ec.hpp", "include/ack/ecdsa.hpp: ecdsa_verify"]}
{"id": "C55", "title": "Multiplication of a point off the curve computes on the curve through the point", "statement": "Scalar multiplication in all three coordinate systems never uses b: for any point Q it returns k Q in the group of y^2 = x^3 + a x + b' through Q, and the result lies on that curve, which is what an invalid-curve attack needs.", "quantifier": "all curves, all points with reduced coordinates, all scalars", "why_tests_cant": "Universal over points and scalars.", "anchors": ["include/ack/ec.hpp: operator*, mul_add"]}
{"id": "C56", "title": "Key recovery is the recovery of SEC 1, and recovering and comparing is verifying", "statement": "For every digest, all integers r and s and every recovery identifier, ecdsa_recover returns a point of the curve that differs from the identity exactly when SEC 1 (4.1.6) recovers a key for that identifier, and then it is r^-1 (s R - e G). A key and a signature determine the identifier; a key on the curve accepts a signature exactly when one of the identifiers 0..3 recovers it, so the benchmark actions (recover, then compare with the public point) succeed for some identifier exactly when ecdsa_verify accepts. Refuted for the identity as key: comparing with the identity succeeds when nothing is recovered.", "quantifier": "all curves of prime order with the parameters in range (and the eight named ones without hypotheses), all digests, integers, identifiers, keys", "why_tests_cant": "The second abscissa r + n occurs with probability about 2^-128 on the named curves, so identifiers 2 and 3 are never exercised by random tests.", "anchors": ["include/ack/ecdsa.hpp: ecdsa_recover", "examples/helloack/src/helloack.cpp: bt_ecdsa_recover_*"]}
{"id": "C57", "title": "Programs over heap-allocated big integers compute on integers", "statement": "A program of assignments, copies, moves, swaps, additions, subtractions, products, divisions, shifts, negations and absolute values on big integers stored in flexbuffers, with any aliasing between destination and operands (and q different from r and y in a division), leaves in each object exactly the integer the program text says, unless it reaches an addition of magnitudes whose destination is an operand and whose heap block has to move; that addition, and nothing else, is undefined behaviour. In-place products, word additions, subtractions of magnitudes, shifts and divisions are safe whatever happens to the blocks. Division by zero aborts. Refuted: that x += x may be repeated (1 doubled in place 32 N + 1 times is undefined for every N), and that a moved-from object is usable as an operand.", "quantifier": "all programs, all in-object sizes N, all contents of fresh memory", "why_tests_cant": "The sequences of reallocations depend on the history of each object; a use after free usually returns the old words, so tests pass.", "anchors": ["include/ack/bigint.hpp: uadd, usub, mul, div_mod, shl, shr, swap", "include/ack/buffer.hpp: flexbuffer"]}
{"id": "C58", "title": "The word loops are right in place and for overlapping operands, at the level of memory", "statement": "Over a memory of word arrays with loads and stores, each low-level function (compare, add, subtract, multiply by a word, multiply-accumulate, copy, clear, shift by bits and by words, word addition and subtraction with carry, division by a word, schoolbook product, long division with and without quotient, and the bodies of uadd, uadd1, usub, usub1, mulu1, udiv) leaves in the destination exactly the words of the integer result, returns the carry, borrow, remainder or size, stays inside its arrays, trips none of its assertions and changes nothing else in memory: in place, and for every overlap in which the destination does not run ahead of the reads (upward loops: destination not above the source; downward loops: not below). The product may overwrite both operands; udiv may write the quotient over the dividend. The contents of the local arrays do not matter. A zero divisor or one with a leading zero word aborts. copy_n to an overlapping higher address is not a copy: it repeats the first word.", "quantifier": "all memories, array positions and overlaps, sizes, word values and contents of the local arrays", "why_tests_cant": "Tests exercise a few sizes and the usual in-place calls; whether a loop reads a word after overwriting it depends on the relative position of the operands and on carries.", "anchors": ["include/ack/bigint.hpp: namespace detail", "include/ack/bigint.hpp: uadd, uadd1, usub, usub1, mulu1, udiv"]}
{"id": "C59", "title": "With an RSA key pair exactly the holder's signatures are accepted", "statement": "Let n be a product of distinct primes r and e*d = 1 modulo every r-1. Then s -> s^e mod n and m -> m^d mod n are inverse to each other on 0..n-1. PKCS#1 v1.5 verification with each of the four hashes accepts one byte string per digest, the signature of RFC 8017 8.2.1, and answers false to all others (so signatures are not malleable); PSS verification accepts exactly the strings RFC 8017 8.1.1 makes of the digest with some salt of the given length (moduli that fill their top byte; for other moduli the same with an encoding of 8k-1 bits). Independently of any key, no PKCS#1 signature is accepted for two digests or two hash functions, and a PSS signature accepted for two digests exhibits a collision of the hash. The same holds over the exponentiation of powm.h and for the PKCS#1 actions of the example contract.", "quantifier": "all key pairs with any number of distinct primes, all digests, salts, salt lengths and byte strings offered as signatures", "why_tests_cant": "Tests check that some signatures are accepted and some altered ones rejected; that no second string is accepted needs the RSA permutation and the exactness of the padding checks.", "anchors": ["include/ack/rsa.hpp: rsassa_pkcs1_v1_5_verify, rsassa_pss_mgf1_verify, verify_rsa_*", "include/ack/c/powm.h: mod_exp", "examples/helloack/src/helloack.cpp:96-158"]}
{"id": "C60", "title": "With an ECDSA key pair exactly the holder's signatures are accepted", "statement": "On a curve whose order n is a prime above p/2 that kills every point (all eight named curves): the curve has exactly n points, the identity included; every key on it other than the identity has exactly one private key d in 1..n-1 and generate_point reaches it; ecdsa_verify accepts (r, s) for a digest exactly when d produces (r, s) from the digest with some nonce k in 1..n-1, and that nonce is unique.", "quantifier": "all usable curves, all keys on them, all digests that fit the order, all integers r and s", "why_tests_cant": "That nothing but the holder's signatures is accepted, and that no key lacks or has two holders, quantifies over the whole group; it needs the group law and a count of the points.", "anchors": ["include/ack/ecdsa.hpp: ecdsa_verify", "include/ack/ec_curve.hpp: generate_point", "include/ack/ec_curve.hpp: the named curves"]}
{"id": "C61", "title": "The software exponentiation works on memory as it does on numbers", "statement": "The word routines of c/powm.h, run over memory with equal or overlapping arrays, compute the integers they claim and change nothing else: conditional addition and subtraction return the carry whether or not they write; multiply-add leaves (x 2^32 + z) mod m in x; reduction leaves a mod m; Montgomery multiplication leaves a b / R mod n when its result overlaps neither factor, and 0 when it is one of them; pow_mod changes only the caller's buffer, whose bytes become the power, whatever the overlap of buffer, modulus and R^2, and writes nothing when it refuses the exponent.", "quantifier": "all memories, all placements of the operands, all lengths, all moduli, all operands, all contents of the local arrays", "why_tests_cant": "Aliasing bugs show only for particular placements and carries; tests run the routines on a few separate arrays.", "anchors": ["include/ack/c/powm.h: br_i32_add", "include/ack/c/powm.h: br_i32_sub", "include/ack/c/powm.h: br_i32_muladd_small", "include/ack/c/powm.h: br_i32_reduce", "include/ack/c/powm.h: montgomery_mul", "include/ack/c/powm.h: pow_mod"]}
{"id": "C62", "title": "The software exponentiation frees exactly what it allocates", "statement": "rsa_gen_key_prop makes seven requests for memory. Whichever of them fail, it returns an error with every block it obtained freed exactly once, no other block touched and no NULL or freed block used, and powm aborts; if none fails the caller owns exactly four blocks holding the key, rsa_free_key_prop releases exactly these, and powm returns the value of C11 with the heap as it was.", "quantifier": "all patterns of failing requests, all heaps, all moduli and exponents, all contents of fresh blocks", "why_tests_cant": "Tests run with enough memory: the error paths through goto out are never taken, and leaks or double frees there go unseen.", "anchors": ["include/ack/c/powm.h: rsa_gen_key_prop", "include/ack/c/powm.h: rsa_free_key_prop", "include/ack/c/powm.h: rsa_mod_exp_sw", "include/ack/rsa.hpp: powm"]}
{"id": "C63", "title": "RSA verification over the software exponentiation, for every public exponent", "statement": "With the exponentiation of c/powm.h and a modulus it is made for, the outcome of PKCS#1 v1.5 and PSS verification is determined for every exponent: an odd exponent of at most 8 bytes accepts exactly the signatures valid for the exponent without its bits from 32 to the one below the top (the exponent itself below 2^33), so that exponents agreeing elsewhere are one public key and the genuine signatures of such a key are refused; even exponents, 0 and 1 answer false to every signature; empty exponents and those of 2^64 and more abort; exponents of more than 8 bytes with leading zeros are undefined behaviour.", "quantifier": "all exponents of any length, all odd moduli of whole words, all signatures, all digests, all hash functions for PSS", "why_tests_cant": "Tests use 3, 17 and 65537; the exponents that are cut, refused or overrun are not among any finite list of test vectors.", "anchors": ["include/ack/c/powm.h: pow_mod", "include/ack/rsa.hpp: powm", "include/ack/rsa.hpp: rsassa_pkcs1_v1_5_verify", "include/ack/rsa.hpp: rsassa_pss_mgf1_verify"]}
{"id": "C64", "title": "Affine points on curves through the origin", "statement": "On a curve with b = 0 the pair (0, 0) is a point of order two, which the affine class takes for the identity. Sums, doubles and differences are then the group's with the identity in place of (0, 0); multiples and double multiples are right up to adding (0, 0), and right when (0, 0) is not a multiple of the point, in particular for points of odd order. is_valid, make_point and verify accept exactly the points and generators that n takes to the identity or to (0, 0), so a point of order 2n passes for one of order n.", "quantifier": "all curves with b = 0 over prime fields, all points, all scalars", "why_tests_cant": "All named curves have b <> 0, so no test vector exercises the case; which points are confused depends on the whole group.", "anchors": ["include/ack/ec.hpp: ec_point_fp::is_identity", "include/ack/ec.hpp: ec_point_fp::add", "include/ack/ec.hpp: ec_point_fp::is_valid", "include/ack/ec.hpp: ec_curve_fp::verify", "include/ack/ec.hpp: ec_curve_fp::make_point"]}
{"id": "C65", "title": "The operators of bigint denote their symbols", "statement": "For + - * / %, as binary operators and as assignments, with an int, a 32-bit word, a 64-bit integer, another bigint or the left operand itself on the right, the result denotes the integer the symbol says, and division by zero aborts; every comparison with the bigint on either side, ++ and --, & and |, shifts and the unary minus likewise; the member functions mul and sqr give the product. What the overloads that deviate compute is determined.", "quantifier": "all big integers, all operand types and values, all capacities with room for the result", "why_tests_cant": "There are over a hundred overloads and each ranges over all integers; three families of them are wrong.", "anchors": ["include/ack/bigint.hpp:2448-2596 (operators)", "include/ack/bigint.hpp:1732-1752 (mul, sqr)"]}
{"id": "C66", "title": "Field elements with operands of every type", "statement": "For a reduced element x and an operand of any type (int, 32-bit word, 64-bit integers, big integer, field element) and any value, x op k, k op x and x op= k for + - * store a number congruent to the exact result modulo p (to its negative for k - x), which is the reduced representative exactly for operands in a stated range; the number stored outside the range is determined. Division by any non-negative big integer gives the reduced quotient or aborts; the six comparisons, fp_is_valid and fp_neg of an integer of any type, assignment and the accessors agree with the integers, also through the base class.", "quantifier": "all moduli above 1, all reduced elements, all operand types and values", "why_tests_cant": "The operators differ per operand type and are only reduced on part of the range of each type; a test fixes one type and one value.", "anchors": ["include/ack/fp.hpp:170-230 (fp_is_valid, fp_neg)", "include/ack/fp.hpp:448-1094 (fp_element)", "include/ack/fe.hpp: field_element operators and is_one"]}
{"id": "C67", "title": "Numbers and points from hexadecimal text", "statement": "A big integer constructed from hexadecimal text, with or without a terminating NUL, or from a literal, is the number its digits denote, whatever their number and case; text that is too long for the capacity or has another character aborts. generate_point of a text or a literal is generate_point of that number for the three classes of points; on the named curves it is the number times the generator, and aborts outside 1..n-1. print writes the sign and digits that read back as the number.", "quantifier": "all texts, all capacities, all big integers, all curves", "why_tests_cant": "Texts of every length, parity and case; a literal passes its terminating NUL on, which only works because one trailing NUL is dropped.", "anchors": ["include/ack/bigint.hpp: bigint(std::string_view)", "include/ack/bigint.hpp: bigint(const char (&)[N])", "include/ack/bigint.hpp: print", "include/ack/ec.hpp: ec_curve_fp::generate_point", "include/ack/utils.hpp: from_hex"]}
{"id": "C68", "title": "Pointers inside field elements, points and curves", "statement": "Programs that leave every modulus variable alone while an element refers to it compute as if elements held their modulus by value. Points of a curve object and of its copies, in any mixture, behave as the points they stand for, and after any history of constructions, copies and destructions every curve object makes and generates the points of the curve with its parameters; equality of points is equality of coordinates on one curve.", "quantifier": "all programs over variables and elements, all histories of curve objects, all points, all scalars", "why_tests_cant": "The named curves are constants that are never copied or destroyed, so no test has an object that outlives what its pointers refer to.", "anchors": ["include/ack/fp.hpp: fp_element constructors, pm_", "include/ack/ec.hpp: ec_point_base::curve_, ec_curve_fp::g, ec_curve_fp::generate_point", "include/ack/ec.hpp: operator== of ec_point_fp"]}
{"id": "C69", "title": "Pointers in Jacobian and homogeneous points and in ECDSA", "statement": "Points with three coordinates of a curve object and of its copies, in any mixture, behave as the points they stand for; after any history of constructions, copies and destructions of curve objects, verification with a key on a curve object, recovery and point generation give what the curve with the parameters of that object gives, and keys recovered from signatures of one signer compare equal.", "quantifier": "all histories of curve objects, all points, scalars, keys, messages, signatures and recovery identifiers", "why_tests_cant": "The test curves are constants that live as long as the program and are never copied, and which object a recovered key refers to depends on the message.", "anchors": ["include/ack/ec.hpp: ec_point_fp_proj, ec_point_fp_jacobi, ec_mul_add_fast", "include/ack/ec.hpp: ec_curve_fp::generate_point, ec_curve_fp::decompress_point", "include/ack/ecdsa.hpp: ecdsa_verify, ecdsa_recover"]}
{"id": "C70", "title": "What timing and memory accesses of the word routines reveal", "statement": "The addresses read and written and the branches taken by the BearSSL word routines depend on the layout of memory and on the announced bit lengths only: not at all on contents for br_i32_bit_length, br_i32_decode and br_divrem, on the announced length of a for br_i32_add and br_i32_sub (not on ctl), of x and m for br_i32_muladd_small, of a and m for br_i32_reduce, of x for br_i32_encode; computing R^2 mod n for a key reveals of the modulus only its bit length; the same holds of the modular multiplication. The conversions between bytes and words are exact at the level of memory.", "quantifier": "all pairs of memories of the same layout, all pointers (overlapping ones included), lengths and control values", "why_tests_cant": "A relation between two runs on different secrets cannot be seen in one run, and a test compares results, not traces.", "anchors": ["include/ack/c/powm.h:264-273", "include/ack/c/powm.h:310-388 br_i32_bit_length, br_i32_decode", "include/ack/c/powm.h:391-439 br_i32_encode", "include/ack/c/powm.h:444-741 br_i32_add, br_i32_sub, br_divrem, br_i32_muladd_small, br_i32_reduce", "include/ack/c/powm.h:909-953 montgomery_mul"]}
{"id": "C71", "title": "The Python reference implementation of the curves and of ECDSA", "statement": "In scripts/ec.py inverse_mod terminates and returns the inverse in (0, p) exactly when there is one; ec_is_on_curve decides the curve equation; ec_neg, ec_add, ec_mul and ec_mul_add_fast compute the opposite, the sum, the multiple and a P + b Q in the group of the curve; ecdsa_verify and ecdsa_verify_fast agree and return True exactly for the signatures the ECDSA equation admits; the functions that print their steps give the same results; the three curves are those of the library, and the script and the C++ verification accept the same signatures on them.", "quantifier": "all integers, all curves over prime fields above 2 without singular point (for multiples and ECDSA: without point of order two and with a prime order killing every point), all points, digests and signatures", "why_tests_cant": "The script is what the test vectors of the library are checked against; agreement on finitely many vectors says nothing about the exceptional points (identity, opposite points, points of order two, coordinates that are not reduced).", "anchors": ["scripts/ec.py:7-56", "scripts/ec.py:60-88 inverse_mod", "scripts/ec.py:93-116 ec_is_on_curve, ec_neg", "scripts/ec.py:118-241 ec_double, ec_add, ec_add_steps", "scripts/ec.py:243-386 ec_mul, ec_mul_add_fast, ec_mul_add_fast_steps", "scripts/ec.py:388-501 ecdsa_verify, ecdsa_verify_fast, ecdsa_verify_steps, ecdsa_verify_fast_steps"]}
{"id": "C72", "title": "Big-integer arithmetic with assertions enabled, at any capacity", "statement": "In a build with assertions every big-integer operation either does what the release build does or stops, and the value it returns is exact whatever the capacity: addition, subtraction, multiplication, shifts, assignments and bitwise operations stop exactly when the capacity has no room for a carry, product or word they prepare for, when a negative operand meets an operation on magnitudes, when the divisor is zero, when an int operand is the smallest int, or when jacobi's second operand is even; division, the right shift, gcd and jacobi never stop for want of room; modinv, pow, modexp, lcm, floor division and the non-adjacent form are exact or stop, and stop only for want of room (lcm also in the case where the release build is wrong). The assertion of the 64-bit assignment refuses exactly the smallest 64-bit number.", "quantifier": "all capacities, fixed or growable, all valid objects, all word, int and 64-bit operands (modexp: exponent at least two or a reduced base with modulus above one; bitwise destinations that are not negative; set_bit within the words of the object)", "why_tests_cant": "Whether a fixed capacity is large enough for every intermediate result of modinv or modexp depends on all operands; a test that passes at one capacity says nothing about the silent truncation of a release build at another, nor that the assertions catch each of them.", "anchors": ["include/ack/bigint.hpp:780 invalid_var", "include/ack/bigint.hpp:814-1041 uadd, usub, _add, udiv, _div_mods1", "include/ack/bigint.hpp:1227-1268 operator=", "include/ack/bigint.hpp:1461-1556 to_naf, bits", "include/ack/bigint.hpp:1580-1603 compares1", "include/ack/bigint.hpp:1699-1958 add, sub, mul, div, shl", "include/ack/bigint.hpp:1961-2093 shr, or_bit, and_bit, pow", "include/ack/bigint.hpp:2137-2345 modexp, modinv, gcd, lcm", "include/ack/bigint.hpp:2374-2430 jacobi", "include/ack/bigint.hpp:2532-2577"]}
{"id": "C73", "title": "The doubled capacity of the curve integers is enough: with assertions enabled nothing stops and nothing changes", "statement": "In a build with assertions, and with the double capacity that ec.hpp declares for the integers of a curve, no assertion of the big-integer layer ever fires in the field, point, curve and ECDSA layers: every field operation (also on unreduced or negative operands not longer than p), inversion, exponentiation, division and square root, every operation and multiplication of affine, projective and Jacobian points, the construction and check of the curve object, point encoding, decoding, decompression and generation, and ECDSA verification and recovery return exactly what the release build returns; so verification with assertions accepts exactly what the standard accepts. The eight named curves have that capacity. The room is needed: where the product, the sum or the difference of two operands does not fit, multiplication, squaring, addition, subtraction and multiplication by an int stop.", "quantifier": "all capacities with twice the words of the modulus, all odd prime moduli (above 3 for points, above 8 for Jacobian points), all operands not longer than the modulus, all scalars with one word of spare room, all byte strings, all messages, all r and s, all keys with reduced coordinates", "why_tests_cant": "An assertion fires for want of room only for operands whose intermediate results are long enough; no finite set of signatures or points shows that no intermediate result of modular inversion, Tonelli-Shanks or the non-adjacent form of any scalar exceeds the declared capacity on any of the eight curves.", "anchors": ["include/ack/ec.hpp:15 ec_fixed_bigint", "include/ack/fp.hpp fp_neg, fp_add, fp_sub, fp_mul, fp_sqr, fp_div, fp_sqrt", "include/ack/ec.hpp point operations, mul, mul_add", "include/ack/ec_curve.hpp", "include/ack/ecdsa.hpp", "include/ack/bigint.hpp:1126-1129, 1485-1490, 1582, 2165-2171, 2299-2305, 2567 asserts"]}
{"id": "C74", "title": "What the equal-length word product and square compute", "statement": "mul_n(z, x, y, n) writes 2n words whose value is the last row x * y[n-1] at its place plus the lowest word of every other row; it never exceeds the product, and equals it exactly when x times each word of y but the last fits one word. So for no n above one is it the product its comment promises, and sqr_n is the square exactly when all words but the last are zero or the number is below 2^16.", "quantifier": "all word arrays x, y of equal length at least one", "why_tests_cant": "The functions are not called by the library or its tests, and are right for every one-word operand and for many longer ones; the exact set of operands for which they are right is a statement about all arrays.", "anchors": ["include/ack/bigint.hpp:274-282 mul_n", "include/ack/bigint.hpp:284-289 sqr_n", "include/ack/bigint.hpp:232-250 get_mul_word"]}
{"id": "C75", "title": "What an accepted ECDSA signature binds", "statement": "On a usable curve, and for a key on it: for one message and one r that is the abscissa of no second point modulo n (r + n >= p), the only values of s accepted are s and n - s, and for any r there are at most four; one signature (r, s) is accepted, with the private key d, only for digests congruent to e or to -e - 2rd modulo n, is accepted for both or for none of these, and for any r for at most four digests modulo n; two accepted signatures with one r satisfy one of two linear equations in the private key. A signature does not determine the digest: for any two digests that are neither equal nor opposite modulo n there are a key and a signature accepted for both, on every named curve. On the named curves the bounds hold with no hypothesis on the curve, and r >= 2^(bits/2 + 1) suffices for the first ones.", "quantifier": "all usable curves, all eight named curves, all keys on the curve, all messages whose leftmost bits are whole bytes, all r and s", "why_tests_cant": "That no fifth s or digest exists for any key, message and r is a statement about all 2^256 values; that every pair of messages has a common signature under some key is a statement about all pairs.", "anchors": ["include/ack/ecdsa.hpp:25-57 ecdsa_verify", "include/ack/ec_curve.hpp named curves"]}
{"id": "C76", "title": "The software RSA exponentiation as a whole, over memory", "statement": "rsa_gen_key_prop followed by rsa_mod_exp_sw, run over memory with every byte and word accessed through pointers: for an odd modulus of 4q bytes without leading zero, a base of 4q bytes and an odd exponent of up to eight bytes from 3 on, every access is in bounds, the run succeeds, only the bytes of the result change, whatever the fresh arrays contained and however base, exponent, modulus and result overlap, and the result is a residue of base^e (e as the code takes it) modulo the modulus, the least one if the base is below the modulus or the top bit of the modulus is set. With zero bytes before the 4q bytes of the modulus and a base longer by a multiple of four, the first 4q bytes of the base are raised to the power and the others copied. An even exponent or one below 3 is refused and leaves the memory as it was. A modulus, stripped of zeros, or a base whose length is not a multiple of four is undefined behaviour.", "quantifier": "all memories, buffers, contents of fresh arrays, moduli, bases and exponents of the stated shapes", "why_tests_cant": "Tests run the code on a few keys and buffers that do not overlap; that no access leaves its array and that the result does not depend on uninitialised memory or aliasing is a statement about all of them.", "anchors": ["include/ack/c/powm.h:770-855 rsa_gen_key_prop", "include/ack/c/powm.h:1087-1143 rsa_mod_exp_sw", "include/ack/rsa.hpp:160-168 powm"]}
{"id": "C77", "title": "powm of rsa.hpp on views, over memory", "statement": "powm on views in the software branch, run over memory. For an odd modulus of 4q bytes behind 4k zero bytes, a base of the same length and an odd exponent of one to eight bytes from 3 on, it returns the power of the first 4q bytes of the base (a residue of it, the least one if those bytes are below the modulus or its top bit is set) followed by the last 4k bytes of the base, and the memory of the caller is as before, however the views overlap. An even exponent or one below 3 gives zeros without an error. Empty views, different lengths and exponents from 2^64 on are stopped. For the moduli of C11 and bases in range the run is the function of C09 with the primitive of C11, for every exponent. Exponents of more than eight bytes that fit 64 bits, and moduli whose length or number of leading zeros is no multiple of four, are undefined behaviour.", "quantifier": "all memories, views, contents of fresh arrays, moduli, bases and exponents of the stated shapes", "why_tests_cant": "Tests use a few keys in buffers of their own; the theorems cover every placement of the views in memory, every exponent and every length.", "anchors": ["include/ack/rsa.hpp:141-196 powm", "include/ack/c/powm.h:770-855 rsa_gen_key_prop", "include/ack/c/powm.h:1087-1143 rsa_mod_exp_sw"]}
{"id": "C78", "title": "RSA verification over memory", "statement": "rsassa_pkcs1_v1_5_verify and rsassa_pss_mgf1_verify in the software branch, run over memory: is_s_valid, powm, memcmp, memxor and mgf1 read and write through pointers, and the mask of PSS is removed in place in the vector that holds the seed. For the moduli of C11 (odd, a multiple of four bytes, no leading zero byte), every signature, every exponent and every placement of the views, overlapping or not, the answer is that of RFC 8017 with the effective exponent (PSS with emBits taken from the length of the modulus), the memory of the caller is as before, and no access is out of bounds, except for exponents of more than eight bytes that fit 64 bits. With a key pair exactly the signature of its holder is accepted. mgf1 changes the mask only.", "quantifier": "all memories, views, contents of fresh arrays, signatures, exponents, digests, salt lengths, hash functions and moduli of the stated shape", "why_tests_cant": "Tests verify some signatures in buffers of their own and cannot show that no other signature, placement or content of fresh memory changes the answer.", "anchors": ["include/ack/rsa.hpp:79-125 is_s_valid", "include/ack/rsa.hpp:198-245 rsavp1, rsassa_pkcs1_v1_5_verify", "include/ack/rsa.hpp:250-256 rsa_1_5_t_generator", "include/ack/rsa.hpp:273-343 rsassa_pss_mgf1_verify", "include/ack/mgf.hpp:19-47 mgf1", "include/ack/utils.hpp:207-234 memxor"]}
{"id": "C79", "title": "RSA with an even modulus", "statement": "The software exponentiation with an even modulus of 4q bytes without leading zero byte, which powm.h and rsa.hpp let through: every access is in bounds and only the result is written, as with an odd modulus, but the result is a power made of products of which the upper half is kept, not the power modulo n. RSA verification over memory agrees with the functions on byte lists for every signature and exponent, and PKCS#1 v1.5 accepts exactly the signatures whose truncated power is the encoded message. RFC 8017 does not hold for such moduli: with exponent 3, if the top bit of n is set and r^2 mod n is at least r/32 (r the power of two above n), every digest has an accepted signature; one that RFC 8017 rejects is given.", "quantifier": "all memories, views, contents of fresh arrays, signatures, exponents, digests and even moduli of the stated shape", "why_tests_cant": "Keys in tests have odd moduli; what happens to the others, and that every digest can be signed for them without a key, needs an argument about all numbers.", "anchors": ["include/ack/c/powm.h:770-855 rsa_gen_key_prop", "include/ack/c/powm.h:1087-1143 rsa_mod_exp_sw", "include/ack/rsa.hpp:141-196 powm", "include/ack/rsa.hpp:198-245 rsavp1, rsassa_pkcs1_v1_5_verify"]}
{"id": "C80", "title": "RSA verification with leading zero bytes in the modulus", "statement": "rsassa_pkcs1_v1_5_verify in the software branch, run over memory, with a modulus of 4q bytes behind 4k zero bytes and a signature of the same length: a signature with fewer leading zeros than the modulus passes the range check whatever its value, only its first 4q bytes are raised to the power, and its last 4k bytes are compared with the end of the encoded message as they are; the other signatures are accepted only below the modulus. PSS decodes the same block. So with 4k at least the length of a digest, a signature accepted for one digest gives one for every other digest by replacing its last bytes. RFC 8017 does not hold: a signature above the modulus is accepted. If the number of leading zeros or of the other bytes is no multiple of four, verification of every signature that passes the range check is undefined behaviour, for PKCS#1 v1.5 and PSS.", "quantifier": "all memories, views, contents of fresh arrays, signatures, exponents, digests, hash functions and moduli of the stated shape", "why_tests_cant": "Tests use moduli without leading zeros; how the zeros change what is checked, for every signature and digest, follows from the code of two files together.", "anchors": ["include/ack/rsa.hpp:79-125 is_s_valid", "include/ack/rsa.hpp:141-196 powm", "include/ack/rsa.hpp:198-245 rsavp1, rsassa_pkcs1_v1_5_verify", "include/ack/c/powm.h:770-855 rsa_gen_key_prop", "include/ack/c/powm.h:1087-1143 rsa_mod_exp_sw"]}
