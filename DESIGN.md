# Formal model of the ack library — design

Source: `/repo/include/ack` (header-only C++ library). Nothing is compiled or run; the only
tie between the model and the code is the line-by-line reading recorded in the comment above
each Gallina definition (`file:lines`, plus every simplification made).

## 1. Layers

| layer | files (`rocq/theories`) | source modelled |
|---|---|---|
| outcomes | `Outcome.v` | `check` = `Abort`, C++ undefined behaviour = `UB`, loop fuel = `NoFuel` |
| utilities | `UtilsModel/Spec/Proofs/Properties` | hex, memxor, byte-view streams, spans, keys |
| buffers | `BufferModel/…` | `fixed_buffer`, `flexbuffer` incl. heap growth; `BufferConst*`: `flexbuffer` in constant expressions |
| words | `WordsModel/…` | `bigint.hpp` namespace `detail` (32-bit word arrays) |
| bigint | `BigintModel/…` | class `bigint` over a word store, size and sign |
| bigint on the heap | `BigHeap*` | the same member functions as programs over `flexbuffer` storage: resizing, pointers, aliasing, moves |
| hashes | `Sha384*`, `Keccak*`, `Mgf*` | `sha.hpp`, `keccak.hpp`, `mgf.hpp` |
| rsa | `Rsa*`, `Pss*`, `Powm*` | `rsa.hpp`, `c/powm.h` |
| numbers | `Num*`, `Jacobi*`, `Residues`, `Legendre` | gcd, lcm, inverse, pow, modexp, NAF, Jacobi symbol |
| field | `Fp*` | `fe.hpp`, `fp.hpp`, on big integer objects (`FpWide`: operands not reduced) |
| group | `EcGroup*`, `ZpField` | the textbook group law over any field, and its proof |
| curves | `Ec*`, `CurveVerify`, `DecodeProperties` | `ec.hpp`, three coordinate systems, encode/decode, scalar multiplication, `verify` |
| ecdsa | `Ecdsa*` | `ecdsa.hpp` |
| constants | `Named*` | `ec_curve.hpp` |
| certificates | `GroupOrder`, `Pocklington`, `Limbs`, `Prime*`, `Curve{Cert,CertProofs,Data,Facts}` | none: checkers, in 63-bit limbs, for primality and group-order certificates of the constants |
| keys | `EcKey`, `Malleable`, `NamedGroup`, `Key*`, `Group*` | `generate_point`, `make_point`; the curve theorems put on the named curves |
| off the curve | `EcSafe`, `EcdsaSafe`, `InvalidCurve`, `Safe*` | the point operations and `ecdsa_verify` on points that do not satisfy the equation |
| contract | `Contract*` | the actions of `examples/helloack` from the byte strings of a transaction |
| memory | `Raw*` | `bigint.hpp` namespace `detail` and the bodies of `uadd`, `usub`, `mulu1`, `udiv` again, over memory with aliasing pointers |

Each layer has `…Model.v` (definitions only, no proofs), `…Spec.v` (a short independent
specification: integers, FIPS/RFC text, textbook definitions), `…Proofs.v`, and
`…Properties.v`, which holds only the property theorems closed by `exact`, each followed by
`Print Assumptions`, and the non-vacuity `Example`s.

## 2. Conventions

* A word is a `Z` in `[0,2^32)`; a word array is a `list Z`, least significant word first.
* Wrap-around of `uint32_t`/`uint64_t` is written explicitly (`mod 2^32`, `mod 2^64`).
* Pointer-mutating functions return the new array. Where destination and source may alias the
  comment says why value semantics is still right (each index is read before it is written), or
  the aliasing is modelled (`lcm`, growth of `flexbuffer`). C58 proves for every word loop, over a
  memory of arrays with loads and stores, which equal or overlapping operands are right.
* `assert` is taken as compiled out (release build); a condition guarded only by `assert`
  is a hypothesis of the theorem or the subject of a `_refuted` theorem. C72 treats the
  big-integer arithmetic with the assertions enabled, C73 the field, curve and ECDSA layers, C58
  the word loops.
* Failing `check` is the outcome `Abort`; out-of-range reads/writes, null dereference, shifts by
  at least the width are `UB`; loops without a structural bound take fuel and yield `NoFuel`
  when it runs out; the theorems prove that outcome impossible.
* Fixed-capacity and growable big integers share one model with a capacity parameter
  `cap` (`Fixed N` = `fixed_bigint`, `Flex N` = `bignum` with N in-object words).
* The field layer works on big integer objects (words, size, sign). `elem c p x` says that `x` is a
  field element object whose value is reduced modulo `p`; `modulus_ok` that the modulus is above 1
  and that a product of two reduced numbers fits the capacity.
* The point classes are written once over a record `fops` of field operations (EcModel.v), as the
  C++ templates are over the field element type. EcExact.v proves the formulas over an abstract field;
  EcTransfer.v relates `fops` of field element objects to the field Z/p (ZpField.v); the theorems in
  EcProperties.v are about the objects.
* A point object is related to the curve group by `aff_pt`, `proj_pt`, `jac_pt` (EcFeSpec.v). The
  affine class stores the identity as (0,0), so these maps send (0,0) to the point at infinity.

## 3. Properties

| id | what is modelled, and how it is proved |
|---|---|
| C01 | `from_hex` in all variants; induction over the byte list; refutation/abort cases by position |
| C02 | block + tail loops of `memxor`; equality with a pointwise spec |
| C03 | varuint length + bytes streams; induction over the list of views |
| C04 | both buffers as state machines; refinement to a partial array, induction over operations; constant evaluation is shown to take the run-time steps that do not allocate |
| C05 | `sha_compute`; refinement to a direct transcription of FIPS 180-4 (padding as bit string, schedule as recurrence) |
| C06 | `keccak_f`, sponge loops; refinement to FIPS 202 step mappings and pad10*1 |
| C07 | loop of `mgf1` against RFC 8017 B.2.1; hash is a parameter of known digest length |
| C08, C09, C10, C12 | padding checks with exponentiation and hashes as parameters; decision rule iff RFC 8017 |
| C11, C45 | `c/powm.h` word-level Montgomery code; invariant of the CIOS loop, exponent loop induction; `PowmSpec.v` (`effective`) is the power taken for exponents of any length up to 8 bytes |
| C13–C17, C24–C26 | word-level loops, carry invariants `value(out) + carry*B^n = …`; class-level sign handling |
| C18 | `to_naf` loop; invariant on the remaining value, strong induction |
| C19, C20 | Euclid loops with Bezout invariants, fuel bounded by bit length; `NumFuelModel.v` leaves the bound of the division loop inside lcm open and `NumLcmHang.v` gives the invariant under which that loop never ends. For negative x (`NegInvProofs.v`) the same invariants hold with the signs of s, b and the quotients turned round; the parity of the number of divisions (`divisions`, NegInvSpec.v) decides whether the gcd appears as 1 or as -1; `NumSigned.v` treats the remaining signs of operands and modulus |
| C21 | 4-bit window invariant |
| C22 | the sign-product form of the symbol (`gs` in Residues.v: the product over 1..(n-1)/2 of the signs of least absolute residues) is shown multiplicative, periodic and reciprocal for all odd n by an Eisenstein lattice-point count; the loop keeps `gs m0 n0 = j * gs m n`; Euler's criterion through the root bound for polynomials mod p identifies `gs` with the Legendre symbol for primes, and induction over prime factors with the Jacobi symbol of JacobiSpec.v; `JacobiEven.v` follows one round of the loop for even n |
| C23 | canonical-form invariant; negative zero is reachable, so the full statement is refuted and the true part proved |
| C27–C30 | `fp_*` functions and the `fp_element` class on big integer objects, against `Z.modulo`; mixed expressions by induction over an expression type |
| C29 | Tonelli–Shanks: invariant `r^2 = a t`, order of `t` a falling power of two; existence of a non-residue from the root bound; non-residues give 0 |
| C31–C34 | each formula is proved over an arbitrary field to compute the group law (`field`), with every branch for identities, equal and opposite points; the group law itself (associativity included) is proved in EcGroupProofs.v |
| C33, C35 | scalar multiplication and `ec_mul_add_fast` by induction over signed digits, any of the three classes through one generic lemma |
| C36–C38 | byte-level encode/decode; uniqueness of the root with a parity from `roots_claim`; square roots from C29; FpWide.v repeats them for operands that are only no longer than p, which gives every byte string (`decodes` in EcDecodeSpec.v) |
| C39–C42 | `ecdsa_verify`, `ecdsa_recover` and the digest truncation against FIPS 186-5 stated over the curve group (EcdsaSpec.v) |
| C43 | structural equality |
| C44 | the eight declarations of ec_curve.hpp from their hex literals to curve objects; numeric facts decided by computation for every member of the list |
| C46 | algebra of signing, then C39 |
| C47 | `verify` of a curve: exact characterisation of what is accepted, for every prime and every b. For p <= 27 the literal 27 is stored unreduced when b^2 = 1; the sum and the product by -16 are followed with such loose elements |
| C48 | scalar multiplication of C35 behind the range check; injectivity from the prime order |
| C49 | the point computed for n - s is the opposite of the one for s, and has the same abscissa |
| C50 | see below |
| C51 | the theorems C36, C38, C39, C41, C46 with every hypothesis about the curve discharged by C50 |
| C52 | `check_ecdsa` follows the action line by line; conversion of the strings (C17), `make_point` without verification (C48), C51 for keys on the curve, C54 for the others; C52_hashes ties the table of curves and hash functions to the order sizes |
| C53 | SHA-384 (C05) in front of C07, C08, C09 and C11; a lemma shows PSS only hashes strings for which `sha384` answers. ContractExp.v composes the actions with C63, for every exponent |
| C54 | the formulas over an exact field never divide by zero after their guards, carried to objects by the transfer lemmas of EcTransfer.v; the forged key for a digest z is a point Q with x(G + Q) = z: two abscissas at most fail, so a field of 7 elements has one off the curve |
| C55 | none of the formulas mentions b, so the theorems C31, C34 and C35 hold on the curve through the point |
| C56 | `recovers` (RecoverSpec.v) writes SEC 1, 4.1.6 over the abstract group: the identifier names R by abscissa r or r + n and parity, Q = r^-1 (s R - e G); `ecdsa_recover` is shown equal to it case by case (C41's analysis, C38 for the decompression), uniqueness of the identifier by solving for R; digests above 2n give a negative n - e, whose digit list is empty, hence the key of the digest 0 (EcdsaLong.v); `recover_check` (RecoverModel.v) is the benchmark action |
| C57 | `BigHeapModel.v` runs the member functions of `bigint` on the heap model of C13 (objects, blocks, raw pointers, moves), size_ and sign beside each buffer; `zstep` (BigHeapSpec.v) is the integer meaning of each operation on a list of variables. Each operation is shown to refine `zstep` under the invariant `hinv` by reduction to the pure functions of C14–C19; `hazard` names the one exception, shown to be undefined; the doubling program is analysed exactly by tracking the size of its block |
| C58 | `RawModel.v` writes each word loop as the C++ does, over a memory of arrays with loads and stores (outside an array: `UB`), pointers that may be equal or overlap, local arrays with any contents, and the debug assertions. `RawSpec.v`: `holds` (n words at a pointer represent an integer), `only` (nothing else changes), `upward`/`downward`/`apart`. Each loop is shown to write what the function of WordsModel returns (`writes`, RawProofs … RawDivAll), under the weakest placement its direction allows; RawClaims restates this on integers |
| C59 | `RsaSignSpec.v`: key pairs with any number of distinct primes (RFC 8017 3.1, 3.2), RSASP1, PKCS#1 v1.5 signing and EMSA-PSS-ENCODE, written from the RFC apart from the verification spec. Fermat's theorem (Legendre.v) and the product of coprime divisors give the permutation; EMSA-PSS-ENCODE is shown to be the inverse of EMSA-PSS-VERIFY, which also validates that spec; then C08, C09, C11 and C53 are composed with it |
| C60 | `KeyPairSpec.v`: private keys and the number of points. A point outside of the multiples of the generator would give n^2 different sums i G + j X, more than the 2p + 1 points a curve can have (GroupOrder.v), so the group is cyclic of order n; an accepted pair (r, s) then determines its nonce w (e + r d), the converse of C46 |
| C61 | `PowmRawModel.v`: the loops of powm.h with loads and stores through pointers (memory as in C58; memcpy of overlapping words is UB; little-endian machine; the four local arrays of pow_mod have indeterminate contents and are dropped at return). `PowmRawSpec.v`: the BearSSL format (announced bit length, then words) and bytes in memory. Each loop is shown to write the words of the list-level model of C10/C11 and nothing else (`PowmRaw.v`, `PowmRawReduce.v`), then restated on integers. The conversion between bytes and words in powm/rsa_gen_key_prop (decode, encode) remains at the list level |
| C62 | `PowmHeapModel.v`: rsa_gen_key_prop, rsa_free_key_prop, rsa_mod_exp_sw and the software branch of powm over a heap of numbered blocks; an arbitrary function says which requests fail; free of anything but a live block or NULL, and access through NULL or to a freed block, are UB; block contents come from the functions of PowmModel, with their lengths checked against the block. Proved by running the function for each first failure (`PowmHeap.v`) with the lengths of decode, reduce and encode in general |
| C63 | The verification functions of C08/C09 with `mod_exp_sw` as primitive. For an odd exponent the call is shown equal to the call with the 8 bytes of `effective e` over a primitive that is exact for it (C11_total), so C08, C09 and C59 apply; for the others powm's checks and the refusal of pow_mod are followed to the end. The finding uses a 381-bit key with e = 3*2^32 + 5, of which 2^33 + 5 is used. |
| C64 | The exact formulas give the group sum with `collapse` (the identity for (0, 0)) whatever b is; modulo the origin T this is a homomorphism, since 2T is the identity, so the double-and-add and the Shamir loop compute the class of the multiple. For a point with no multiple at T the relation is equality. The checks of points and curves follow through the lemmas of C47 and C48 taken over any account of `is_valid`. The findings use y^2 = x^3 + x over GF(43). |
| C65 | `OperatorModel.v` writes each overload as its line does, over `operand` (the five types and the object itself); `denotes` and `holds_rel` (OperatorSpec.v) are the integer meanings. One lemma per symbol reduces to C13–C16, C24 and C26; `wrong` names the overloads that deviate, whose results are stated separately |
| C66 | `FieldOpModel.v` writes the members of fp_element once for all operand types over the operators of C65. The tails of fp_add and fp_sub are exact for every number, since they add or subtract p only across the sign boundary; `stored` is the number kept, `exact` the integer meant, `in_range` the operands for which one correction suffices |
| C67 | `HexModel.v` composes C01's from_hex with the byte constructor and generate_point; `hex_number` (HexSpec.v) reads a text digit by digit. Induction over the text ties it to the bytes of C01 and so to C17; the named curves by C50. eosio::printhex is modelled as two lower-case digits per byte |
| C68 | `PointerModel.v` keeps the pointers that FpModel.v, EcModel.v and EcCurveModel.v replace by values: objects at addresses, destroyed objects, and every function of fp_element and the affine point again with `*pm_` and `curve()` read from memory. `look`, `look_point`, `look_curve` (PointerSpec.v) give the value-level objects. A simulation (`agree`) carried through each operation, the ladder, and programs; `stable` and `lives` follow a program without running it. This justifies the replacement in the other models for programs that keep their moduli and curves |
| C69 | `JacPointerModel.v`: EcModel.v's two classes with three coordinates, `ec_mul_add_fast`, generation, decompression, `ecdsa_verify` and `ecdsa_recover` again over the memory of PointerModel.v. The simulation of C68 carried through them; the loops are polymorphic in the point type, so one lemma each (`ladder_agree`, `naf_agree`, `mul_add_agree`) serves all classes. `family` (JacPointerSpec.v) is the set of surviving objects with one original. Normalisation needs z to be an element of the curve's field because the code keeps the modulus of z. JacPointerOrigin.v follows the curve pointer alone through the operations; loops reuse the same lemmas with a relation between a point and itself |
| C70 | `TraceModel.v`: the loops of PowmRawModel.v again, and `br_i32_bit_length`, `br_i32_decode`, `br_i32_encode` at the level of memory, in a writer monad: every address read or written and every decision of an if, switch or loop condition is logged in order, also in runs that end in undefined behaviour; arithmetic is assumed silent and local variables to be registers. `TraceSpec.v`: `alike P` (same layout, equal contents of the cells P, nothing about the others) and `indistinguishable` (same trace, same kind of end). TraceProofs.v: forgetting the trace gives the functions of C61 (`fst_tbind`), and a relational bind rule (`same_bind`) carries `alike` through each loop: a load of an unknown cell yields unrelated words, a store to a cell outside P keeps `alike`. TraceValue.v proves decode and encode exact against OS2IP and I2OSP. `derive_t` is the sequence of the three calls of rsa_gen_key_prop that compute R^2 mod n |
| C71 | `ScriptModel.v`: scripts/ec.py function by function: Python integers are Z, // and % are Z.div and Z.modulo, an exception is a distinct outcome (`Raise`), assertions are enabled, printing is dropped except that a print that cannot evaluate its argument raises; the unbounded while loop of inverse_mod has a bound that is proved sufficient; recursion on negative arguments is unfolded once; arguments have the annotated types. `ScriptSpec.v`: the group element of a pair of integers, `sound` curves, the ECDSA equation. ScriptProofs.v: extended Euclid (invariant modulo p, product of the remainders halves); ScriptPoints.v, ScriptMul.v: the formulas against the chord-and-tangent law of EcGroup.v, the loops against `zmul`; ScriptClaims.v: verification, and the exceptional inputs; ScriptNamed.v: the constants of a `usable` curve object are `sound`, so the theorem of C39 and the one about the script speak of the same acceptance |
| C72 | `AssertModel.v` repeats the functions of bigint.hpp with each `assert` as a check (`d_*`). `exact_or_stop` and `below` (AssertSpec.v) are the two claims. AssertRefine.v: every function stops or equals its release version, whatever the operands. AssertProofs.v and AssertExact.v: the exact condition under which each basic operation stops. For the loops (modinv, the non-adjacent form) AssertSim.v runs the debug build at a given capacity beside the release build with growable storage: as long as no assertion stops it the objects hold the same values, so C19 and C23 for growable storage carry over; pow and modexp use the loop invariants of C21. `assert` of the buffers' subscript operators is not repeated (in range by C04–C06, C58). |
| C73 | `DebugEcModel.v` repeats the field, square root, point, curve and ECDSA functions over the checked arithmetic of AssertModel.v (`d_*`); the point formulas are the same definitions, instantiated with the checked field operations `d_fe_ops`. DebugFp.v, DebugSqrt.v: an operand not longer than the modulus (`fits`) stays so, and every check passes when the capacity is twice the length of the modulus. DebugEc.v, DebugMul.v, DebugCurve.v: the relation `same` (both runs return the same value, which is again within bounds) is carried through the point formulas, the scalar loops, the codec, the curve object and ECDSA. C73_accepts composes this with C39; C73_named supplies the capacities of the named curves. |
| C74 | `mul_n` (WordsModel.v) and `sqr_n` (MulNModel.v). MulNProofs.v: after each pass the words below the row number are final, so the result is the lowest word of each row followed by the last row; each of these is at most x times the word of y, with equality exactly when that product fits one word. n = 0, where the code reads y[0], is excluded. |
| C75 | The models are those of C39 and C60; `signature` and `private_key` are the specifications. BindProofs.v: two multiples of the generator with one abscissa have nonces k and n - k, so the abscissa (r or r + n) and the half of the range the nonce lies in label a signature, and a label determines s and the digest modulo n. For two digests e, e' the key d = -(e + e') / (2r) and the nonce 1 give a common signature; the theorems need that the abscissa of the generator is not zero modulo n, which holds for the named curves. `C75_named` and `C75_named_four` restate the bounds for them: p - n is at most 2^(bits/2 + 1), by computation, so every r from there on is the abscissa of one pair of points. |
| C76 | WholeModel.v puts the struct and the arrays of rsa_gen_key_prop and rsa_mod_exp_sw into one memory and calls the routines of PowmRawModel (C61) and the decoding and encoding of TraceModel (C70). Arrays hold bytes or words; a cast between the two reads the array and lays it out anew in little-endian order, which is faithful because the array is not written while used through the other type. Allocations succeed and freed blocks stay (C62). WholeProofs.v follows the key preparation (`gen_key_ok`), WholeMain.v the exponentiation and the copy, on top of `pow_mod_memory`; `leave` drops the memory of the callees, so that only the result differs. |
| C77 | WholeModel.v (`powm_view_w`, `powm_call_w`): the check of the exponent reads it byte by byte, the vector of the result is a fresh zeroed block, the rest is the run of C76; the contents of the vector are the result. WholeView.v reduces it to the three checks and `powm_w` (`view_eq`) and uses the theorems of C76; `view_agrees` compares with `RsaModel.powm mod_exp_sw`. |
| C78 | RsaMemModel.v: the verification functions, `is_s_valid`, `mgf1` and `memxor` over the memory of C76 and C77. The vector em, the arrays of mgf1 and the digests are fresh blocks; spans outside em are `UB`. RsaMemProofs.v and RsaMemPss.v show that every access is in bounds and that the run is the function of C08 and C09 with the primitive of C11 (`pkcs1_agrees`, `pss_agrees`); RsaMemClaims.v carries the tables of C63 over. The hash function and the prefixes are values, not memory of the caller. |
| C79 | The models of C11, C76, C77 and C78. EvenSpec.v states the truncated power. For an even modulus `br_i32_ninv32` gives 0, so each row of the Montgomery product shifts the sum by a word without adding a multiple of the modulus (EvenPowm.v: `step_high`, `mul_high`, `pow_mod_high`). EvenMem.v follows it over memory with the lemmas of C76 to C78 that do not need an odd modulus. EvenClaims.v: the truncated cube rises by at most one per step (`cube_step`), so it takes every value up to its largest one (`climb`), the encoded message among them. |
| C80 | The models of C77 and C78. LeadSpec.v states the block that is compared: the power of the leading bytes of the signature followed by its other bytes. LeadClaims.v gets it from `view_ok` and `view_high` (`lead_power`), shows that the range check lets every signature with fewer leading zeros through (`fewer_valid`), and that the digest is the end of the encoded message and lies in the bytes that are copied (`transfer`). `verify_ub` uses `view_ub` and `view_base_ub` of C77. |
| C12, C18, C21, C23, C25, C26, C39 beyond their limits | `ExactProperties.v`: what the code does where the earlier theorems ask for room, reduced arguments or small sizes. BigintExact.v removes the room hypothesis case by case; NafExact.v follows the recoding against `naf_cut` (NafExactSpec.v), which shortens the true non-adjacent form; NumExact.v repeats the window invariant with truncated remainders so that both signs of base and modulus are covered; EcdsaExact.v redoes verification against `accepts_once`, then compares that with the standard |

C50 works with certificates found outside Coq and checked by functions proved sound in Coq (nothing
about them is trusted; a wrong certificate makes the check fail).
* n is prime: Pocklington's criterion (Pocklington.v, PrimeCert.v, data in PrimeData.v). One factor in the
  chain of secp521r1 is proved prime by an auxiliary curve instead (q361 in CurveData.v).
* p is prime: if n is prime, n G = Inf checked with invertible denominators modulo p, and n is too large for
  the number of points over a smaller field, then p has no prime divisor up to its square root.
* n kills every point (GroupOrder.v): translation by a point permutes the points, so their number N kills every
  point and n divides N; at most two points lie over each abscissa, so N <= 2p + 1 and N is n or 2n; so
  2n kills every point X and n X is its own opposite; a checked Bezout identity between x^p - x and x^3 + a x + b
  excludes points of order two, so n X = Inf. Hasse's theorem is not needed.
* The arithmetic of the checkers (Limbs.v) is Montgomery arithmetic in 63-bit machine integers. This is the
  only use of primitive integers; it models no library code.

## 4. Trusted base

* The Coq 8.16.1 kernel (including its `vm_compute`), and, for C50, C51, C52, C56, C60, C67 and C75 only, its 63-bit integers.
* The output of `Print Assumptions` under each theorem (see section 6).
* The reading of the C++ code.
* Not modelled: the EOSIO intrinsics (`mod_exp`, host `sha*`, `assert_*`), gas/stack limits, compile-time
  evaluation paths that only duplicate run-time ones, `print`; examples/helloack/include/bt.hpp holds only the
  vectors of the benchmark and the test programs are not modelled.

## 5. Findings

Statements that are false of the model of the code, each with a theorem exhibiting the counterexample.

* `C03_truncated_unchecked_refuted`: The code itself never checks the declared length: with an unchecked [skip] the view handed out runs past the end of the stream.
* `C09_bit_length_accepts_refuted`: For a modulus of 23 bits the code accepts an encoding that RFC 8017 rejects: the number of unused bits is computed as if the modulus filled its top byte (rsa.hpp:285).
* `C09_bit_length_rejects_refuted`: For a modulus of 25 bits the code rejects a signature that RFC 8017 accepts.
* `C09_salt_length_wrap_refuted`: A salt length near 2^32 wraps the length check and the check of the padding reads out of bounds.
* `C10_leading_zero_refuted`: With leading zero bytes in the modulus a representative larger than the modulus passes the range check.
* `C11_big_exponent_refuted`: Exponents of more than 33 bits give a wrong result: exponent bits from 32 up (below the top one) are ignored because the masked 64-bit value is returned as an int (powm.h:993-997).
* `C11_even_modulus_refuted`: An even modulus gives a wrong result.
* `C11_exponent_length_ub`: an exponent of more than 8 bytes, leading zeros included, is copied before the start of the 8-byte array.
* `C11_leading_zero_refuted`: A modulus with leading zero words gives a wrong result.
* `C11_long_exponent_refuted`: The exponent 3 written with 9 bytes passes the range check of rsa.hpp:144-148 and leads to the out-of-bounds copy.
* `C11_modulus_length_ub`: a modulus that is not made of whole words is written past the end of the stack array by br_i32_decode.
* `C11_unreduced_base_refuted`: A base above a modulus whose top bit is clear gives a result that is not reduced.
* `C13_heap_inplace_growth_refuted`: x += y on a heap-allocated bignum whose block has no spare word reads freed memory, for every in-object size N (bigint.hpp:816-826: the comment "&x[0] and &y[0] will not change" is wrong).
* `C16_set_bit_beyond_size_refuted`: Beyond the current word count set_bit exposes stale words: setting bit 33 of 1 gives another number.
* `C18_naf_full_capacity_refuted`: An operand filling its fixed capacity is recoded wrongly.
* `C19_both_negative_refuted`: refuted: with number and modulus both negative modinv reports that there is no inverse, whether or not there is one.
* `C19_minus_one_refuted`: refuted for negative numbers: modinv reports that -1, its own inverse, has no inverse, for every modulus, and the member function aborts.
* `C19_modulus_one_refuted`: Outside 0<x<m: modulo 1 the result is 1, not in range.
* `C20_gcd_negative_refuted`: refuted for negative operands: of two numbers that are not positive gcd always returns the negative of the greatest common divisor.
* `C20_lcm_hangs_refuted`: lcm does not return, however many passes are allowed, whenever the gcd has at least two words with the top bit set and x has at least twice as many words: the whole divisor is cleared before the division, and zero is subtracted for ever.
* `C20_lcm_negative_refuted`: refuted for negative operands: of two negative numbers lcm returns the negative of the least common multiple.
* `C20_lcm_refuted`: lcm is wrong when the gcd has at least two words with the top bit set: the quotient x / gcd is written over the gcd while it is still the divisor.
* `C21_modexp_modulus_one_refuted`: 10^0 mod 1 is returned as 1
* `C21_modexp_unreduced_base_refuted`: 10^1 mod 7 is returned as 10
* `C23_negative_zero_unequal_refuted`: ... and that zero differs from the unsigned literal 0.
* `C23_zero_sign_refuted`: Zero can be negative: (-5) + 5.
* `C25_add_refuted`: Silently wrong although the result fits: 1 + 2 in one word.
* `C25_mul_refuted`: 3 * 5 in one word.
* `C25_shl_refuted`: 3 << 1 in one word writes out of bounds.
* `C26_div_word_negative_refuted`: -7 / 2u is 3
* `C26_mod_word_refuted`: x % word dereferences a null quotient pointer for every x
* `C27_normalize_refuted`: Outside that range it does not: 250 mod 101, -200 mod 101, -1010 mod 101.
* `C27_null_modulus_ub`: zero() and one() cannot take part in arithmetic.
* `C27_unreduced_operand_refuted`: for a big integer operand that is not reduced the documented (this + x) % modulus and (this * x) % modulus fail.
* `C30_div_refuted`: k / f is not k divided by f (the operator with an int k does not compile at all).
* `C30_minus_refuted`: k - f is not k minus f.
* `C31_b_zero_refuted`: on a curve with b = 0 the law fails: the point (0, 0) is taken for the identity and addition is not associative.
* `C33_small_field_refuted`: in a field of fewer than 9 elements the multiplier 8 is not reduced and doubling can return an unreduced coordinate, so the result differs from the affine one.
* `C34_b_zero_refuted`: on a curve with b = 0 the affine 3*P is wrong when 2*P = (0, 0).
* `C34_small_field_refuted`: over GF(7) the Jacobian 2*P differs from the affine one.
* `C36_ordinate_zero_refuted`: C38: a point with ordinate zero does not survive compression: it decompresses to the identity.
* `C37_off_curve_refuted`: an uncompressed string of coordinates off the curve is accepted.
* `C37_unreduced_refuted`: a compressed string with an unreduced abscissa is accepted and gives an object different from the one of the reduced abscissa; bytes after the type byte 0 are ignored.
* `C38_ordinate_zero_refuted`: the abscissa of a point with ordinate zero is reported as a failure.
* `C39_cofactor_refuted`: on a curve with p > 2n a signature the standard accepts can be rejected: the abscissa is reduced by subtracting n once.
* `C39_digest_refuted`: C42: with an order of 5 bits a signature the standard accepts is rejected, since whole bytes of the digest are taken.
* `C41_digest_refuted`: with an order that does not fill its bytes and a digest above 2n a recovered key need not verify: n - e is negative.
* `C41_range_refuted`: with n > p and r >= p a recovered key need not verify: r is taken for an unreduced abscissa.
* `C42_refuted`: an order of 5 bits: all bits of the first byte are taken.
* `C47_accepts_refuted`: a cofactor that Hasse's theorem excludes is accepted.
* `C47_composite_refuted`: a composite modulus is accepted: y^2 = x^3 + 6x + 28 modulo 35.
* `C47_rejects_refuted`: a sound curve with p - 1 points is rejected.
* `C52_key_on_curve_refuted`: refuted: that an ECDSA action succeeds only with a key on the curve. For every message whose digest number is neither 0 nor the abscissa of the generator modulo n, some key off the curve and some signature are accepted.
* `C53_exponent_ub`: finding: a transaction can drive every RSA action into undefined behaviour. For every modulus the exponentiation is made for, an exponent with leading zeros that is longer than 8 bytes and any signature of the right size below the modulus make powm.h write outside the 8 bytes it keeps the exponent in.
* `C54_key_on_curve_refuted`: refuted: that an accepted key is a point of the curve. For every digest whose number is neither 0 nor x_G modulo n there are coordinates off the curve under which (z, z) is accepted, z the number of the digest.
* `C56_identity_refuted`: refuted for the identity as key: that recovering and comparing succeeds only if the signature verifies. A signature out of range recovers the identity, which equals the identity given as key.
* `C57_doubling_refuted`: x = 1; x += x; x += x; ...: fine 32 N times (N the static words of the buffer), undefined at the next
* `C57_moved_from_refuted`: a moved-from object has no value: as an operand it aborts, or reads the contents of fresh memory
* `C61_in_place_refuted`: montgomery_mul does not work in place: it clears its result before it reads the factors, so with the result over either factor the outcome is 0 for all operands. Its comment states no such restriction (no caller in this file passes such arguments).
* `C61_reduce_in_place_ub`: Reduction in place (x = a, which its comment forbids): memcpy of overlapping words for every modulus of more than 64 bits and every number of the same announced length.
* `C63_foreign_signature_refuted`: finding: with the same key a byte string is accepted that is not a valid signature.
* `C63_own_signature_refuted`: finding: there is a key pair with an exponent above 2^33 whose own signature is answered with false.
* `C64_make_point_refuted`: on a sound curve with b = 0 make_point with verification accepts a point outside the subgroup of order n: (10, 8) of order 22 on the curve over GF(43) generated by (4, 5) of order 11.
* `C64_verify_refuted`: verify accepts parameters whose generator does not have order n: on y^2 = x^3 + x over GF(43) with n = 11 and the right cofactor 4, the generator (10, 8) has order 22.
* `C65_refuted`: refuted: that every operator denotes its integer. (-7) / 2u is 3; (-7) %= 2 with a 64-bit 2 leaves -3.
* `C65_word_remainder_ub`: the remainder by a 32-bit word is undefined behaviour for every x: the quotient is written through a null pointer.
* `C66_base_is_one_refuted`: refuted: that field_element::is_one tells whether the element is 1. It calls is_zero (fe.hpp:82): through a reference to the base class the element 1 is not one, and 0 is.
* `C66_negative_inverse_refuted`: refuted: that an element made by multiplication with an integer can be inverted. With p = 101, -3 * 77 is stored as -29 and inverse() aborts, as does division by -29; -2 * 77 is stored as -53, which is inverted correctly.
* `C66_null_modulus_ub`: an element without a modulus, such as zero() or one(): an assignment is silently dropped, the operators dereference the null pointer.
* `C66_unreduced_refuted`: refuted: that the operators give an element of the field for every operand of the allowed types: with p = 101, 77 + 500 is stored as 476, 77 - (-500) as 577, -3 * 77 as -29, 1 * 500 as 500.
* `C68_assigned_modulus_refuted`: an element is in the field its modulus variable had when the element was made, whatever happens to the variable later. Refuted: assigning the variable moves the elements made from it to another field; 5 mod 11, doubled after the variable becomes 7, is 3 and not 10.
* `C68_copy_equality_refuted`: equal points of one curve compare equal. Refuted for copies: 1 times the generator of a copy, and the point the same copy makes from the coordinates of its generator, are the same point and compare different.
* `C68_original_destroyed_ub`: a copy of a curve can be used like the curve. The implicit copy constructor copies the pointers in g, which refer to the original; once the original is destroyed, generating the point of any scalar from 2 to n - 1 reads a destroyed object.
* `C68_other_curve_refuted`: points of different curves compare different. Refuted: (0, 1) on y^2 = x^3 + x + 1 over 23 elements and over 29 compare equal.
* `C68_temporary_modulus_ub`: a field element cannot be made from a temporary modulus. The deleted overloads (fp.hpp:492, 511) take one and two arguments; with the third argument a temporary is accepted, and negation, inversion, addition, subtraction, and multiplication of values other than one then read a destroyed object.
* `C69_copy_equality_refuted`: equal points of one curve compare equal. Refuted for copies in both classes with three coordinates: the generator of a copy and the point the copy makes from the coordinates of its generator.
* `C69_key_destroyed_ub`: a key can be verified with after its curve object is destroyed. Verification reads the destroyed curve, for every message and signature.
* `C69_original_destroyed_ub`: keys of a copy verify as keys of the original. Once the original is destroyed, every verification with r and s in range that would give an answer, every recovery that would give a key, and generation of Jacobian points for scalars from 2 to n - 1 read a destroyed object.
* `C69_point_destroyed_ub`: a point can be doubled and checked after its curve object is destroyed. With z = 1 or coordinates elsewhere no answer is given, and the Jacobian double reads the destroyed curve; with another z every operation does.
* `C69_recovered_keys_refuted`: keys recovered from two signatures of one signer compare equal. Refuted for a copy of a curve: the recovered key refers to the copy or to the original, depending on the message, and keys that refer to different objects compare different.
* `C70_montgomery_refuted`: The Montgomery multiplication (not part of BearSSL) does not have the property that powm.h:270-272 claims of computations on modular integers: whether the final subtraction is carried out depends on the factors, here 2^32 - 2 and 1, both below the modulus 2^32 - 1.
* `C71_identity_key_refuted`: refuted: that only a point other than the identity is taken for a public key. Anyone can make signatures that verify under the key None.
* `C71_infinity_refuted`: refuted: that verification always answers True or False. It raises TypeError when the sum is the identity: with the generator as key and the message integer - r modulo n, for every r and s in range.
* `C71_negative_refuted`: refuted: that ec_mul_add_fast refuses factors outside [0, n). Negative ones pass the check and lose their sign with the text of bin: -1 P + 1 Q comes out as P + Q; the version that prints meets the letter b of that text first, and raises.
* `C71_order_two_refuted`: refuted: that ec_add and ec_mul work on every smooth curve. A point of order two (there is none on the curves of the script) cannot be doubled, nor multiplied even by one: ZeroDivisionError.
* `C71_steps_refuted`: refuted: that ec_mul_add_fast_steps gives the result of ec_mul_add_fast. For opposite points it raises TypeError, because it prints the coordinates of P + Q.
* `C71_unreduced_refuted`: refuted: that ec_add adds any two points ec_is_on_curve accepts. Coordinates that are not reduced are accepted but compared as integers: with the same point written as (x, y) and (x, y + p) the sum is None instead of the double, with (x + p, y) an assertion fails.
* `C72_int64_refuted`: refuted: the assertion of the 64-bit assignment is meant to refuse the smallest number of its type but compares with the smallest int (bigint.hpp 1250): it refuses -2^31, which is representable, and accepts -2^63.
* `C72_mod_word_ub`: modu1 writes through a null pointer for every operand that is not negative, in debug builds too (bigint.hpp 1785-1790 and 1898-1909).
* `C74_product_refuted`: refuted: mul_n is not the product "z[2n] = x[n] * y[n]" its comment states, for any length above one: the accumulating pass takes get_mul_word, which overwrites, for get_mul_word_add (bigint.hpp 278). Nothing in the library calls mul_n or sqr_n.
* `C75_message_refuted`: refuted: an accepted signature does not determine the digest: for any two messages whose digests are neither equal nor opposite modulo n there are a key on the curve and a signature that ecdsa_verify accepts for both. This is a property of ECDSA itself; it means that a signer can prepare a key for a pair of messages.
* `C75_named_refuted`: refuted: the same on each of the eight named curves, with no hypothesis on the curve.
* `C76_base_length_ub`: A base whose length is not a multiple of four bytes makes the memcpy of rsa_mod_exp_sw leave its array.
* `C76_modulus_length_ub`: A modulus whose length without its leading zeros is not a multiple of four bytes makes br_i32_decode write past the end of the array n of powm.h:804, whatever the base.
* `C77_exponent_length_ub`: An exponent of more than eight bytes whose value fits 64 bits passes the check of lines 182-186, which compares the value; rsa_gen_key_prop then copies all its bytes into the eight of the struct.
* `C77_leading_zeros_ub`: A number of leading zeros of the modulus that is not a multiple of four: the call is undefined, either for the reason above or because the base then has a length that is no multiple of four.
* `C77_modulus_length_ub`: A modulus whose length without its leading zeros is not a multiple of four bytes, with a base of the length of the modulus: powm of rsa.hpp lets it through.
* `C79_accepted_refuted`: RSASSA-PKCS1-v1_5 of RFC 8017 does not hold for an even modulus: a signature it rejects is accepted.
* `C80_accepted_refuted`: RSASSA-PKCS1-v1_5 of RFC 8017 does not hold for a modulus with leading zero bytes: a signature that is not even below the modulus is accepted.
* `C80_lengths_ub`: A number of leading zeros of the modulus, or of its other bytes, that is no multiple of four: verification of every signature that passes the range check is undefined, for PKCS#1 v1.5 and PSS. A modulus with the one zero byte of its DER encoding is such a case.

## 6. Assumptions per theorem

Every one of the 595 property theorems (`Theorem C*` in `*Properties.v`, listed by property in
`MANIFEST.json`) is followed by `Print Assumptions`. The output is "Closed under the global context" for
all of them except those of `GroupProperties.v` (C50 and C51) and the three of C52 about the named curves
(`C52_total`, `C52_action`, `C52_key_on_curve_refuted`), the three of C56 (`C56_named`, `C56_named_any`, `C56_named_check`), `C60_named`, `C67_named` and the three `C75_named`, `C75_named_four`, `C75_named_refuted`, which use the 63-bit integers of the standard library. Each of these lists exactly: the primitives `PrimInt63.int`, `add`, `sub`, `mul`, `land`, `lor`, `lsl`,
`lsr`, `eqb`, `ltb`, `leb`, and the specifications the standard library states for them, `Uint63.add_spec`,
`sub_spec`, `mul_spec`, `land_spec`, `lor_spec`, `lsl_spec`, `lsr_spec`, `ltb_spec`, `leb_spec`, `eqb_correct`,
`eqb_refl`, `of_to_Z`. No other axiom is used anywhere.

## 7. The log of wrong programs

`seeded/LOG.jsonl` must not be read as a kill rate. The scripts that produced it wrote a line only
when some theorem failed. Edits that survived, were ill typed or timed out left no line, unless a
theorem was tightened and the edit tried again. The lines at the end whose claim starts with
`SURVIVED` were recovered afterwards from the run logs and notes still at hand; other survivors of
earlier runs may be missing. Those lines say which edits give the same program, which no theorem
excludes (the constants recorded by the loops in `TraceModel.v`), and which were not run again after
the theorems grew.

For the automatic edits ("operator mutant") the build stopped at the first failure, so `failed`
names one lemma, often an intermediate one rather than a theorem of a `Properties` file. A proof
script that breaks does not by itself show that the theorem became false.
