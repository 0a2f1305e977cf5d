# Formal model of incubator-milagro-crypto-rust in Rocq (Coq 8.16.1)

## Layout
* `rocq/theories/Base/`   – machine words, panic monad, list/byte lemmas
* `rocq/theories/Model/`  – executable Gallina model, one file per Rust file (or group of twin files); each definition cites `/repo` lines
* `rocq/theories/Spec/`   – small independent specifications (integers, curves, FIPS-197, FIPS 180-4, FIPS 202, SP 800-38D, RFCs)
* `rocq/theories/Proof/`  – lemmas
* `rocq/theories/Prop/`   – the property theorems (one `Theorem Cxx_…` per clause), each followed by `Print Assumptions`, and
  concrete `Example`s showing that the hypotheses are met
* `tools/` – `props.py` (properties.jsonl), `manifest.py` + `status.json` (MANIFEST.json), table/ROM extractors
* `seeded/LOG.jsonl` – wrong-program experiments (edits of the model and the theorems that then fail)

## Modelling conventions
* A Rust method that mutates `&mut self` is a function returning the new value; output slices are returned.
* `option` is the panic monad: `None` = the Rust code panics (checked-arithmetic overflow, index out of bounds, `unwrap`, assert,
  division by zero) **or does not terminate** (loops carry fuel; exhausted fuel is `None`). A theorem ending in `= Some v` says that
  the call returns, that no checked operation of a debug build panics, and therefore that the release build computes the same `v`.
  Where debug and release builds differ observably the function takes a `build` argument (`Debug`/`Release`).
* Signed words are `Z` with range checks (`chk`); `<<` and `as` wrap (`wrap`); `>>` is arithmetic. Unsigned words likewise
  (`chku`, `wrapu`).
* Fixed-size arrays are lists whose length is an invariant; slices supplied by a caller are lists of any length and an out-of-bounds
  access is `None`.
* The limb layer (Big, DBig), FP, FP2, FP4, FP12, ECP, ECDH are parametric in the ROM record (`Model/Roms.v`, generated from
  `src/roms`): theorems hold for every ROM meeting a stated, decidable side condition (`cfg_ok`, `fp_ok`, `w_ok`, …). The side
  conditions are discharged by a verified boolean checker for every ROM for which they are true; ROMs for which they fail are named.
* Rust `Result<_, AmclError>` is `result` inside the panic monad.
* `usize` is 64 bits wide where its width matters.

## What is modelled
| source | model | not modelled in that file |
|---|---|---|
| big.rs, dbig.rs | Model/Big.v (randomnum/random in Model/EccProto.v) | Display/Debug glue |
| fp.rs | Model/Fp.v | to_hex/from_hex |
| fp2.rs | Model/Fp2.v | tostring, to_hex, from_hex |
| fp4.rs | Model/Fp4.v | string functions, xtr_pow, xtr_pow2 |
| fp12.rs | Model/Fp12.v | string functions, compow |
| ecp.rs | Model/Ecp.v, mulx in Model/G1Mul.v | string functions, coordinate getters |
| ecp2.rs | Model/Ecp2.v, Model/Ecp2Mul.v | string functions, frob, clear_cofactor, mul4, generator, mapit, hap2point |
| pair.rs | Model/G1Mul.v (glv and g1mul), BLS curves | the pairing itself, gtpow, line functions, BN curves |
| aes.rs | Model/Aes.v, AesTables.v | – |
| gcm.rs | Model/Gcm.v | – |
| hash256/384/512.rs | Model/Sha2.v, Sha2Tables.v | – |
| sha3.rs | Model/Sha3.v | – |
| rand.rs | Model/Rand.v | – |
| ecdh.rs | Model/Ecdh.v (hash, KDF, MAC, CBC), Model/EccProto.v (key pairs, DH, ECDSA, ECIES) | – |
| ff.rs | Model/Ff.v | random, prime, cfactor, pow2, string functions |
| rsa.rs | Model/Rsa.v (hashit, mgf1, pkcs15, oaep), Model/Ff.v (encrypt, decrypt) | key_pair (random primes) |
| nhs.rs | Model/Nhs.v, NhsTables.v | – |
| hash_to_curve.rs | Model/HashToCurve.v, Model/Sswu.v, Model/Sswu2.v | — |
| bls381/iso.rs | Model/Iso.v | isogeny to G2 |
| bls381/core.rs, basic.rs, message_augmentation.rs, proof_of_possession.rs | Model/Bls.v, Model/BlsScheme.v, Model/BlsKeyPair.v, Model/BlsG1Grp.v (the implemented G1 as a group of BlsScheme) | subgroup_check_g2; the pairing, and on the G2 side the group, are parameters of BlsScheme |
| errors.rs, types.rs | with their users | – |
| roms/*.rs | Model/Roms.v | Frobenius and pairing-only constants |

Not modelled at all: fp8/fp16/fp24/fp48, ecp4/ecp8, pair192/pair256, bls192/bls256, mpin192/mpin256; timing, side channels, zeroisation and performance.

## Per property
Status and theorem names are in MANIFEST.json; the reason for every restriction is in its note and in a comment above the theorem.

| id | model | specification | how it is proved |
|----|-------|---------------|------------------|
| C01–C08, C17, C18 | Big.v | `val` of a limb list as an integer (Spec/BigSpec.v) | induction on limbs; carry invariants; shift/subtract loops by invariant; the fuel is shown sufficient |
| C09 | Big.v | congruence x·r ≡ 1 | loop invariant of the binary extended Euclid; non-termination on non-units shown |
| C10 | Big.v | Jacobi symbol as product of Legendre symbols (Spec/JacobiSpec.v) | quadratic reciprocity proved from scratch, then loop invariant |
| C11 | Big.v | x·r ≡ 1 mod 2^m | Newton lifting; induction on the doubling rounds, last round truncated |
| C12 | Big.v, Fp.v | congruence d·R⁻¹ | Montgomery column invariant; folding identities for special moduli |
| C13–C16 | Fp.v | expressions over Z/p (Spec/FpProg.v) | representation relation (value, excess) preserved by every operation; Fermat; square roots for p≡3 mod 4 and p≡5 mod 8 |
| C19, C20 | Fp2/Fp4/Fp12.v | polynomial arithmetic (Spec/TowerSpec.v) | interval tracking of excesses + `ring` identities |
| C21–C23 | Ecp.v | affine chord-and-tangent/Edwards law (Spec/CurveSpec.v, EcpSpec.v) | completeness of the formulas by field identities; associativity of the group law proved; recoding invariants |
| C24–C26 | Aes.v | FIPS-197 (Spec/AesSpec.v) | 256-entry sweeps, GF(2^8) linearity, induction over rounds/blocks |
| C27–C29 | Gcm.v | SP 800-38D (Spec/GcmSpec.v) | GHASH invariant over call histories |
| C30, C31 | Sha2.v | FIPS 180-4, RFC 2104/5869 (Spec/Sha2Spec.v) | streaming invariant |
| C32 | Sha3.v | FIPS 202 (Spec/Sha3Spec.v) | streaming invariant of the sponge |
| C33, C53 | Rand.v, EccProto.v | Spec/RandSpec.v | state invariant over call histories |
| C34–C36 | Ecdh.v | Spec/KdfSpec.v | induction over blocks |
| C37, C38, C52 | EccProto.v | Spec/ProtoSpec.v (textbook ECDSA, ECIES) | over any ROM whose points form a group of the stated order; instantiated for secp256k1 |
| C39, C40 | Rsa.v | RFC 8017 (Spec/RsaSpec.v) | list algebra |
| C41 | Ff.v (Karatsuba, reduce, dmod, invmod2m, power, skpow, rsa_encrypt, rsa_decrypt) | Spec/RsaKeySpec.v (key relations over Z) | every FF operation shown exact under bounds on the top Big ("tf g" = below g·R^n); power and ladder by induction; Fermat and CRT |
| C57 | as C41 | as C41 | partial: the excess of the ladder values grows by at most one per rung; stable when p(F+1) ≤ F·R^n |
| C42, C43, C54 | Nhs.v | Spec/NhsSpec.v (negacyclic ring, packed values) | bit algebra; NTT as evaluation, butterfly induction; noise bound |
| C44, C45 | Bls.v | Spec/BlsSpec.v (ZCash format) | codec case analysis; G1 for every byte string |
| C46 | BlsScheme.v | Spec/BlsSchemeSpec.v | group algebra under the laws of a bilinear pairing, which are explicit hypotheses on the parameter records |
| C47 | HashToCurve.v | Spec/XmdSpec.v | list algebra |
| C48 | Sswu.v | Spec/SswuSpec.v (RFC 9380 6.6.2) | the map's algebra over any prime 3 mod 4, then refinement limb by limb; the un-normalised sums fed to products need wider bounds (Proof/BigMulW.v) |
| C58 | Fp2.v | Spec/Sswu2Spec.v | the two halves (a±√N)/2 multiply to −(b/2)², so one of them is a square unless b = 0 (Proof/Fp2Sqrt.v); un-normalised operands through Proof/BigMontyW.v |
| C60 | Ecp2.v, BlsG2.v | Spec/G2Spec.v (ZCash format over F_p(i)), Spec/Ecp2Spec.v | FP2::sqrt (C58) for the y, the order of y and -y by their imaginary parts; no point with y = 0 because 32 is no cube mod p |
| C61, C62 | Ecp2.v, Ecp2Mul.v | Spec/G2Sum.v (chord and tangent over F_p(i)), Spec/G2Curve.v | the complete formulas and associativity over an abstract field (Proof/WeierK.v) with F_p(i) as pairs of residues (Proof/Field2.v); the windowed ladder of C23 over any group; no point of order two because the norm of b' is no cube |
| C63 | G1Mul.v | scalar multiples by repeated addition, the standard generator (in the Prop file) | phi (x,y) -> (beta x, y) is shown to be a group homomorphism with 1 + phi + phi^2 = 0 (field identities, Proof/Glv.v); phi(G) = -x^2 G by one checked chain of 160 slopes (Proof/G1Cert.v); the decomposition by the Big layer theorems; soundness: A = (x^2-1) phi(A) forces (1+m+m^2) A = n A = 0 |
| C68 | as C63 | as C63 | if a point A outside the multiples of G passed, the n^2 combinations iG + jA would satisfy [x^2]P = -phi(P), hence have x-coordinates that are roots of one non-zero polynomial of degree about 8 x^4 (multiplication by m as a rational function of x, by recursion on the binary digits of m, with a degree bound; Proof/KerCount.v), while there are about n^2/2 > 8 x^4 of them; the polynomial is not zero because the point (0,2) of order 3 does not satisfy the equation (Proof/G1Exact.v). Root counting is by division by X - a |
| C69 | BlsG1Grp.v, BlsScheme.v, Bls.v, G1Mul.v, Ecp.v | Spec/BlsSchemeSpec.v, Spec/BlsSpec.v | C45, C63 and C68 put together: objects stand for multiples of the generator, uniquely modulo n; a byte string either denotes a curve point or is refused, by a finite search; points with x = 0 are not in the group since they have order 3 (Proof/G1Grp.v) |
| C70 | BlsKeyPair.v, Rand.v, BlsScheme.v, BlsG1Grp.v | Spec/BlsSpec.v, Spec/BlsSchemeSpec.v | the generator stays usable over 32 draws (Proof/RandProof.v), KeyGen is C44's, the key is below n so the public key exists (Prop/BlsG1Props.v) |
| C59 | Sswu2.v | Spec/Sswu2Spec.v (RFC 9380 6.6.2 over F_p(i)) | norms: gx2 = (Zu²)³·gx1 and N(Z) = 5 is a non-residue (Proof/Sswu2Math.v); partial: on 32-bit limbs the un-normalised gx may overflow Big::sqr by its worst-case bound |
| C55 | Iso.v | Spec/IsoSpec.v, Spec/HashG1Spec.v | the isogeny identity by integer certificates for polynomial products (Proof/IsoMath.v); composition with C21, C23, C47 |
| C49 | Big, Fp, Ecp | equality | sweeps over limbs |
| C50 | Mpin.v | Spec/MpinSpec.v | hash_id by C24, mapit (C56), pinmul on un-normalised points (Proof/EcpRaw.v), decoding/encoding by C22; the group law gives inversion |
| C56 | Ecp.v (mapit_loop) | Spec/MpinSpec.v | induction on the number of skipped abscissas; new_bigint by C22's lemmas, cofactor by C23's |
| C51 | Roms.v | Spec/RomSpec.v | verified checker evaluated in the kernel per ROM |

## Claims found false of the code
Each is a theorem ending in `_refuted`, with a concrete witness (the surrounding positive theorems state the exact domain on
which the claim does hold):
C08_powmod_modulus_one (x^0 mod 1 = 1) · C11_invmod2m_reduced (1 gives 2^1024+1) · C13_goldilocks, C13_nums384, C13_imul_zero, C13_unnormalised (word overflow or wrong value) ·
C14_unreduced · C19_mul_excess · C22_roundtrip (−(−G) on special moduli), C22_compressed_roundtrip (nums256w returns −P),
C22_short_input (panic) · C23_full_range (panic) · C24_other_lengths · C26_unknown_mode, C26_ctr_debug · C27_debug, C27_bad_key ·
C30_debug_half_gigabyte · C32_zero_length, C32_long_digest, C32_no_reset · C58_sqrt (−1 = i² is refused), C59_sswu_fp2 (panics on an explicit u) · C60_imaginary_y (a compressed G2 point that is written but refused on reading), C60_real_y (a G2 point and its opposite are written as the same bytes) · C33_empty_seed_history · C34_kdf1_is_iso_kdf1 ·
C35_two_iterations, C35_long_salt, C35_long_output, C35_small_field · C36_bad_key_length · C37_short_tag, C37_long_tag ·
C38_zero_mask (signing never returns) · C39_sha256_is_rfc8017 (mask over a zero-padded seed) · C46_identity_key,
C41_encrypt_e0 (e = 0 gives m/R), C46_aug_aggregate_verify_lists, C46_fast_aggregate (panics) · C51_fp512bn_32, C51_mod8 · C55_map_to_curve_g1 (kernel of the
isogeny: the object (0 : 0 : 0) is returned). ·
C63_outside_subgroup (g1mul of 2 and (0,2) is infinity, not (0,-2)).

## Trusted base
* Coq's kernel, including its bytecode VM (`vm_compute` is used for table sweeps, ROM checks, primality certificates and examples).
* Axioms: none of our own, and `Print Assumptions` prints "Closed under the global context" for every property theorem
  (it is run after each theorem in Prop/). Only the Coq standard library is used; no plugin, functor, module type or `Declare Module`.
* The reading of the Rust text into `Model/*.v` (by hand; tables and ROMs by the scripts in `tools/`), including the semantics of Rust
  integer arithmetic in `Base/Word.v`.
* The specifications in `Spec/*.v`.
* Hypotheses stated in the theorems: primality of a field modulus where it is not proved (Pocklington certificates are checked for
  bls381 p and r, bn254 p, ed25519 p, secp256k1 p and n), and the pairing laws of C46.
