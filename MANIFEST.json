{
 "claims": [
  {
   "property": "C01",
   "status": "proved",
   "theorems": [
    "C01_write_then_read",
    "C01_read_then_write",
    "C01_offset",
    "C01_any_length",
    "C01_dbig_read"
   ],
   "note": ""
  },
  {
   "property": "C02",
   "status": "proved",
   "theorems": [
    "C02_norm",
    "C02_dnorm"
   ],
   "note": ""
  },
  {
   "property": "C03",
   "status": "proved",
   "theorems": [
    "C03_comp",
    "C03_unique",
    "C03_iszero"
   ],
   "note": ""
  },
  {
   "property": "C04",
   "status": "proved",
   "theorems": [
    "C04_add",
    "C04_sub",
    "C04_imul",
    "C04_pmul",
    "C04_pxmul",
    "C04_inc_dec",
    "C04_div3"
   ],
   "note": "exact under the stated limb headroom"
  },
  {
   "property": "C05",
   "status": "proved",
   "theorems": [
    "C05_shr",
    "C05_shr_domain",
    "C05_fshr",
    "C05_shl",
    "C05_fshl",
    "C05_mod2m",
    "C05_bits",
    "C05_split"
   ],
   "note": ""
  },
  {
   "property": "C06",
   "status": "proved",
   "theorems": [
    "C06_mul",
    "C06_sqr",
    "C06_smul"
   ],
   "note": ""
  },
  {
   "property": "C07",
   "status": "proved",
   "theorems": [
    "C07_rmod",
    "C07_dmod",
    "C07_div",
    "C07_ddiv"
   ],
   "note": ""
  },
  {
   "property": "C08",
   "status": "proved",
   "theorems": [
    "C08_modmul",
    "C08_modsqr",
    "C08_modneg",
    "C08_powmod",
    "C08_powmod_modulus_one_refuted"
   ],
   "note": "powmod for modulus > 1; modulus 1 is refuted (x^0 mod 1 returns 1)"
  },
  {
   "property": "C09",
   "status": "proved",
   "theorems": [
    "C09_invmodp",
    "C09_invmodp_zero_diverges"
   ],
   "note": "also: does not terminate on multiples of p"
  },
  {
   "property": "C10",
   "status": "proved",
   "theorems": [
    "C10_jacobi",
    "C10_jacobi_total",
    "C10_legendre",
    "C10_zero",
    "C10_degenerate"
   ],
   "note": "full Jacobi symbol through a proof of quadratic reciprocity; even moduli and moduli <= 1 answered 0"
  },
  {
   "property": "C11",
   "status": "proved",
   "theorems": [
    "C11_invmod256",
    "C11_invmod2m",
    "C11_invmod2m_reduced_refuted"
   ],
   "note": "every configuration; the result can be inverse + 2^(8 MODBYTES), see C11_invmod2m_reduced_refuted"
  },
  {
   "property": "C12",
   "status": "proved",
   "theorems": [
    "C12_monty",
    "C12_monty_exact",
    "C12_field_reduction"
   ],
   "note": "Big::monty and the field reductions (NotSpecial, pseudo-Mersenne, generalised Mersenne); MontgomeryFriendly is unused by any ROM"
  },
  {
   "property": "C13",
   "status": "proved",
   "theorems": [
    "C13_histories",
    "C13_from_fresh",
    "C13_mul",
    "C13_sqr",
    "C13_add",
    "C13_sub",
    "C13_goldilocks_refuted",
    "C13_nums384_refuted",
    "C13_imul_zero_refuted",
    "C13_unnormalised_refuted"
   ],
   "note": "for every shipped ROM but fp512bn/32 (inconsistent), nums384/32 (refuted: overflow) and goldilocks (refuted for large excess, proved op by op under the smaller bound); multiplication by the integer 0 and un-normalised sums refuted"
  },
  {
   "property": "C14",
   "status": "proved",
   "theorems": [
    "C14_equals",
    "C14_iszilch",
    "C14_reduced_canonical",
    "C14_unreduced_refuted"
   ],
   "note": "sign and bytes after reduce(); without it refuted"
  },
  {
   "property": "C15",
   "status": "proved",
   "theorems": [
    "C15_pow",
    "C15_inverse",
    "C15_inverse_zero"
   ],
   "note": "primality of p is a hypothesis of the inverse theorem"
  },
  {
   "property": "C16",
   "status": "proved",
   "theorems": [
    "C16_sqrt"
   ],
   "note": "primality of p is a hypothesis"
  },
  {
   "property": "C17",
   "status": "proved",
   "theorems": [
    "C17_tostring",
    "C17_fromstring",
    "C17_round_trip"
   ],
   "note": "strings modelled as lists of hex digit values"
  },
  {
   "property": "C18",
   "status": "proved",
   "theorems": [
    "C18_nbits",
    "C18_dnbits"
   ],
   "note": ""
  },
  {
   "property": "C19",
   "status": "proved",
   "theorems": [
    "C19_add",
    "C19_sub",
    "C19_neg",
    "C19_conj",
    "C19_mul",
    "C19_sqr",
    "C19_mul_ip",
    "C19_div_ip",
    "C19_inverse",
    "C19_inverse_nonzero",
    "C19_inverse_zero",
    "C19_equals",
    "C19_new_bigs",
    "C19_mul_excess_refuted"
   ],
   "note": "non-special moduli (all pairing curves); mul needs 4*excess of the second operand <= FEXCESS, without it refuted; primality of p is a hypothesis of inverse"
  },
  {
   "property": "C20",
   "status": "proved",
   "theorems": [
    "C20_fp4_add_sub",
    "C20_fp4_conj",
    "C20_fp4_mul",
    "C20_fp4_sqr",
    "C20_fp4_inverse",
    "C20_fp12_mul",
    "C20_fp12_conj",
    "C20_conj_automorphism",
    "C20_fp12_sqr",
    "C20_fp12_ssmul",
    "C20_fp12_smul",
    "C20_fp12_inverse",
    "C20_fp12_usqr",
    "C20_norm_adj",
    "C20_fp12_pinpow",
    "C20_fp12_pow_partial",
    "C20_objects_exist"
   ],
   "note": "pairing curves with the stated room (bls381, bls383, bls48, bn254, bn254cx, fp256bn, fp512bn/64); pow on 64-bit ROMs, pow4 and the trace-based compow not covered"
  },
  {
   "property": "C21",
   "status": "proved",
   "theorems": [
    "C21_weierstrass_law",
    "C21_edwards_law",
    "C21_add",
    "C21_dbl",
    "C21_neg",
    "C21_sub",
    "C21_is_infinity",
    "C21_equals",
    "C21_affine",
    "C21_new",
    "C21_edwards_add",
    "C21_edwards_dbl",
    "C21_edwards_neg",
    "C21_edwards_sub",
    "C21_edwards_is_infinity",
    "C21_edwards_equals",
    "C21_edwards_affine",
    "C21_edwards_new"
   ],
   "note": "Weierstrass curves without 2-torsion of the named kind and Edwards curves with a square and d non-square; the Montgomery curve is separate"
  },
  {
   "property": "C22",
   "status": "proved",
   "theorems": [
    "C22_frombytes_on_curve",
    "C22_decode_uncompressed",
    "C22_decode_compressed",
    "C22_tobytes",
    "C22_roundtrip",
    "C22_compressed_roundtrip",
    "C22_decode_encode",
    "C22_edwards_frombytes_on_curve",
    "C22_edwards_decode_uncompressed",
    "C22_edwards_decode_compressed",
    "C22_edwards_tobytes",
    "C22_edwards_roundtrip",
    "C22_edwards_compressed_roundtrip",
    "C22_roundtrip_refuted",
    "C22_compressed_roundtrip_refuted",
    "C22_short_input_refuted"
   ],
   "note": "round trips for writable objects (z not 1, or limbs reduced, or nonzero coordinates on non-special fields); refuted for -(-G) on special moduli and for compressed points of nums256w; the Montgomery curve is not covered"
  },
  {
   "property": "C23",
   "status": "proved",
   "theorems": [
    "C23_mul",
    "C23_mul2",
    "C23_pinmul",
    "C23_edwards_mul",
    "C23_edwards_mul2",
    "C23_edwards_pinmul",
    "C23_full_range_refuted"
   ],
   "note": "scalars within the stated range"
  },
  {
   "property": "C24",
   "status": "proved",
   "theorems": [
    "C24_fips197",
    "C24_nkey",
    "C24_rejects",
    "C24_short_key",
    "C24_other_lengths_refuted"
   ],
   "note": "other key lengths: the nominal length is rounded down to whole words (shown); tables are FIPS-197 (derived from GF(2^8))"
  },
  {
   "property": "C25",
   "status": "proved",
   "theorems": [
    "C25_decrypt_encrypt",
    "C25_spec_inverse"
   ],
   "note": ""
  },
  {
   "property": "C26",
   "status": "proved",
   "theorems": [
    "C26_round_trip",
    "C26_total",
    "C26_modes",
    "C26_unknown_mode_refuted",
    "C26_ctr_debug_refuted"
   ],
   "note": "CTR counter is little-endian from byte 0; debug builds panic when its byte 0 is 255 (refuted); unsupported mode numbers leave data in clear (refuted)"
  },
  {
   "property": "C27",
   "status": "proved",
   "theorems": [
    "C27_encrypt",
    "C27_decrypt",
    "C27_prefix",
    "C27_debug_refuted",
    "C27_bad_key_refuted"
   ],
   "note": "release builds; debug builds panic on overflow (refuted); unsupported key lengths are silently accepted (refuted)"
  },
  {
   "property": "C28",
   "status": "proved",
   "theorems": [
    "C28_round_trip"
   ],
   "note": "release builds"
  },
  {
   "property": "C29",
   "status": "proved",
   "theorems": [
    "C29_order",
    "C29_refused_unchanged",
    "C29_chunks",
    "C29_hex2bytes"
   ],
   "note": "also hex2bytes"
  },
  {
   "property": "C30",
   "status": "proved",
   "theorems": [
    "C30_digest_of_message",
    "C30_any_call_history",
    "C30_chunking_is_irrelevant",
    "C30_digest_shape",
    "C30_debug_half_gigabyte_refuted"
   ],
   "note": "SHA-256/384/512; debug builds below 2^W message bits only (beyond: refuted for HASH256)"
  },
  {
   "property": "C31",
   "status": "proved",
   "theorems": [
    "C31_hmac",
    "C31_hkdf_extract",
    "C31_hkdf_extend",
    "C31_hkdf_extend_length"
   ],
   "note": "for all three hash files"
  },
  {
   "property": "C32",
   "status": "proved",
   "theorems": [
    "C32_hash_is_sha3",
    "C32_shake",
    "C32_output_length",
    "C32_permutation",
    "C32_zero_length_refuted",
    "C32_long_digest_refuted",
    "C32_no_reset_refuted"
   ],
   "note": "every digest length 1..99, any output length; zero-length output and repeated digests without init refuted"
  },
  {
   "property": "C33",
   "status": "proved",
   "theorems": [
    "C33_stream",
    "C33_history_independent",
    "C33_prefix_only",
    "C33_blocks",
    "C33_never_panics",
    "C33_short_buffer_panics",
    "C33_empty_seed_history_refuted"
   ],
   "note": "non-empty seeds; for an empty seed (rawlen = 0) history independence is refuted"
  },
  {
   "property": "C34",
   "status": "proved",
   "theorems": [
    "C34_kdf2",
    "C34_kdf1",
    "C34_kdf1_is_iso_kdf1_refuted",
    "C34_hmac",
    "C34_hmac_refuses_short_tags"
   ],
   "note": "kdf1 is shown to compute something other than ISO 18033-2 KDF1 (refuted)"
  },
  {
   "property": "C35",
   "status": "partial",
   "theorems": [
    "C35_pbkdf2",
    "C35_as_coded",
    "C35_two_iterations_refuted",
    "C35_long_salt_refuted",
    "C35_long_output_refuted",
    "C35_small_field_refuted"
   ],
   "note": "RFC 8018 for one iteration or SHA-512 and fitting sizes; exact result of the code in all other cases; RFC 8018 refuted for SHA-256 with 2 iterations, salts over 32 bytes, outputs over 64 bytes, small fields"
  },
  {
   "property": "C36",
   "status": "proved",
   "theorems": [
    "C36_encrypt",
    "C36_decrypt",
    "C36_round_trip",
    "C36_rejects",
    "C36_bad_key_length_refuted"
   ],
   "note": "keys of unusable length are silently accepted (refuted)"
  },
  {
   "property": "C37",
   "status": "proved",
   "theorems": [
    "C37_encrypt",
    "C37_decrypt",
    "C37_round_trip",
    "C37_altered_tag",
    "C37_short_tag_refuted",
    "C37_long_tag_refuted"
   ],
   "note": "any curve satisfying ec_group (instances: secp256k1, both limb sizes); encryption, decryption and round trip; tags shorter than 4 bytes are never checked and tags longer than 32 panic (refuted)"
  },
  {
   "property": "C38",
   "status": "proved",
   "theorems": [
    "C38_sign",
    "C38_verify",
    "C38_sign_then_verify",
    "C38_sign_nonce",
    "C38_zero_mask_refuted"
   ],
   "note": "any curve satisfying ec_group (instances: secp256k1); signing produces a signature in the sense of the standard, verification is exactly the ECDSA equation; a zero mask makes signing loop forever (refuted)"
  },
  {
   "property": "C39",
   "status": "proved",
   "theorems": [
    "C39_encode",
    "C39_encode_refuses_long",
    "C39_decode",
    "C39_round_trip",
    "C39_sha512_is_rfc8017",
    "C39_sha256_is_rfc8017_refuted",
    "C39_label_is_checked"
   ],
   "note": "OAEP encode/decode: exact image, iff characterisation of decoding, round trip, capacity, label check. A decoded empty message is indistinguishable from a failure (length 0). With SHA-256 the mask is not the RFC 8017 one: refuted."
  },
  {
   "property": "C40",
   "status": "proved",
   "theorems": [
    "C40_pkcs15",
    "C40_too_short",
    "C40_binds_digest"
   ],
   "note": "EMSA-PKCS1-v1_5 encoding for SHA-256/384/512, too-short refusal, binding to the digest."
  },
  {
   "property": "C41",
   "status": "proved",
   "theorems": [
    "C41_encrypt",
    "C41_decrypt",
    "C41_roundtrip",
    "C41_signature",
    "C41_shipped",
    "C41_encrypt_e0_refuted"
   ],
   "note": "key generation is not modelled (its postcondition is rsa_keypair); e = 0 refuted"
  },
  {
   "property": "C42",
   "status": "proved",
   "theorems": [
    "C42_redc",
    "C42_modmul",
    "C42_nres",
    "C42_pack_unpack",
    "C42_unpack_range",
    "C42_compress",
    "C42_decode_noise",
    "C42_decode_bound_tight"
   ],
   "note": "the decoding bound 12287 per group is shown tight"
  },
  {
   "property": "C43",
   "status": "proved",
   "theorems": [
    "C43_ntt_values",
    "C43_roots",
    "C43_intt_inverts",
    "C43_product"
   ],
   "note": "intt needs reduced input (as the code always gives it)"
  },
  {
   "property": "C44",
   "status": "proved",
   "theorems": [
    "C44_secret_key_from_bytes",
    "C44_bytes_round_trip",
    "C44_key_round_trip",
    "C44_key_generate"
   ],
   "note": "as coded: 0..n-1 accepted; key_generate is the draft KeyGen"
  },
  {
   "property": "C45",
   "status": "proved",
   "theorems": [
    "C45_g1_serialize",
    "C45_g1_deserialize",
    "C45_g1_reject",
    "C45_g1_bytes_round_trip",
    "C45_g1_point_round_trip"
   ],
   "note": "G1, both formats, every byte string; G2 is C60"
  },
  {
   "property": "C46",
   "status": "proved",
   "theorems": [
    "C46_public_key",
    "C46_sign",
    "C46_bad_secret_key",
    "C46_verify_exact",
    "C46_sign_verify",
    "C46_other_message",
    "C46_unique",
    "C46_identity_key_refuted",
    "C46_aggregate",
    "C46_aggregate_empty",
    "C46_aggregate_bad",
    "C46_aggregate_verify_exact",
    "C46_aggregate_verify_lists",
    "C46_aggregate_of_signatures_verifies",
    "C46_basic_aggregate_verify",
    "C46_basic_sign_verify",
    "C46_aug_sign_verify",
    "C46_aug_aggregate_verify",
    "C46_aug_aggregate_verify_lists_refuted",
    "C46_pop_prove_verify",
    "C46_pop_verify_exact",
    "C46_fast_aggregate_empty",
    "C46_fast_aggregate_refuted",
    "C46_fast_aggregate_exact",
    "C46_fast_aggregate_g1_frombytes"
   ],
   "note": "for every pair of groups and pairing with the stated laws (grp_ok, pairs_ok): ECP2, the pairing and hash_to_curve enter as hypotheses; the G1 codec and the secret-key functions are the modelled ones; src/bls.rs not covered"
  },
  {
   "property": "C47",
   "status": "proved",
   "theorems": [
    "C47_expand_message_xmd",
    "C47_output_length",
    "C47_hash_to_field_fp",
    "C47_hash_to_field_fp2",
    "C47_huge_count",
    "C47_capacity"
   ],
   "note": "expand_message_xmd for SHA-256/384/512; hash_to_field for bls381; usize taken as 64 bits"
  },
  {
   "property": "C48",
   "status": "proved",
   "theorems": [
    "C48_map_on_curve",
    "C48_sswu_fp",
    "C48_sswu_fp_on_curve"
   ],
   "note": "both ROMs, every input; the quadratic extension is C59"
  },
  {
   "property": "C49",
   "status": "proved",
   "theorems": [
    "C49_cmove",
    "C49_cswap",
    "C49_ecp_cmove",
    "C49_ecp_cswap",
    "C49_ecp_edwards_cmove",
    "C49_ecp_edwards_cswap",
    "C49_fp_cmove",
    "C49_fp_cswap"
   ],
   "note": "Big, FP and ECP levels"
  },
  {
   "property": "C50",
   "status": "proved",
   "theorems": [
    "C50_extract",
    "C50_restore",
    "C50_roundtrip",
    "C50_wrong_factor",
    "C50_pin",
    "C50_pin_negative",
    "C50_invalid_token",
    "C50_recombine",
    "C50_recombine_invalid",
    "C50_unknown_hash"
   ],
   "note": "G1 part of M-Pin on Montgomery-representation curves without 2-torsion (instances bls381 and bn254, both limb sizes); abscissa 0 and infinity excluded because tobytes writes them in non-decodable form"
  },
  {
   "property": "C51",
   "status": "partial",
   "theorems": [
    "C51_bls381_point_order",
    "C51_roms",
    "C51_cfgs",
    "C51_fp512bn_32_refuted",
    "C51_mod8_refuted",
    "C51_primes_partial",
    "C51_point_order_partial"
   ],
   "note": "limb ranges, reduction constants, generator on curve for all; primality of the modulus for 10 and of the order for 4 configurations, exact order of the generator for secp256k1 and bls381; fp512bn/32 and MOD8 refuted"
  },
  {
   "property": "C52",
   "status": "proved",
   "theorems": [
    "C52_key_pair_random",
    "C52_key_pair_given",
    "C52_validate",
    "C52_dh",
    "C52_agreement"
   ],
   "note": "any curve satisfying ec_group (instances: secp256k1); the zero scalar is not excluded by key_pair_generate and yields the bytes of (0,1)"
  },
  {
   "property": "C53",
   "status": "proved",
   "theorems": [
    "C53_random",
    "C53_randomnum"
   ],
   "note": ""
  },
  {
   "property": "C54",
   "status": "proved",
   "theorems": [
    "C54_server_1",
    "C54_short_buffers",
    "C54_client_total",
    "C54_server_2_total",
    "C54_agreement"
   ],
   "note": "agreement under an explicit bound on the noise (the scheme has a non-zero failure probability; probabilities are not modelled)"
  },
  {
   "property": "C55",
   "status": "proved",
   "theorems": [
    "C55_iso11",
    "C55_iso11_kernel",
    "C55_map_to_curve_g1",
    "C55_map_to_curve_g1_refuted",
    "C55_hash_to_curve_g1"
   ],
   "note": "64-bit limbs; inputs mapped to the kernel of the isogeny are refuted (C55_map_to_curve_g1_refuted)"
  },
  {
   "property": "C56",
   "status": "proved",
   "theorems": [
    "C56_mapit",
    "C56_mapit_only",
    "C56_mapit_unique",
    "C56_roms"
   ],
   "note": "the unbounded trial loop is modelled with a fuel argument larger than the number of skipped candidates"
  },
  {
   "property": "C57",
   "status": "partial",
   "theorems": [
    "C57_shipped32_partial"
   ],
   "note": "proved unless a factor lies in the top 1/129 (3072) or 1/513 (4096) of its range"
  },
  {
   "property": "C58",
   "status": "proved",
   "theorems": [
    "C58_sqrt",
    "C58_sqrt_complete",
    "C58_sqrt_refuted"
   ],
   "note": "completeness for real non-residues is refuted (C58_sqrt_refuted)"
  },
  {
   "property": "C59",
   "status": "partial",
   "theorems": [
    "C59_sswu_fp2_partial",
    "C59_on_curve",
    "C59_unique",
    "C59_sswu_fp2_panics",
    "C59_sswu_fp2_refuted"
   ],
   "note": "64-bit limbs only; totality refuted (C59_sswu_fp2_refuted)"
  },
  {
   "property": "C60",
   "status": "proved",
   "theorems": [
    "C60_g2_serialize",
    "C60_g2_serialize_plain",
    "C60_g2_deserialize_plain",
    "C60_g2_deserialize",
    "C60_g2_deserialize_real",
    "C60_g2_deserialize_imag",
    "C60_g2_reject",
    "C60_g2_bytes_round_trip",
    "C60_g2_point_round_trip",
    "C60_imaginary_y_refuted",
    "C60_real_y_refuted"
   ],
   "note": "both ROMs, every byte string; compressed points whose y has a zero component are the refuted part (C60_imaginary_y_refuted, C60_real_y_refuted)"
  },
  {
   "property": "C61",
   "status": "proved",
   "theorems": [
    "C61_curves",
    "C61_group_law",
    "C61_g2_new",
    "C61_g2_add",
    "C61_g2_dbl",
    "C61_g2_sub",
    "C61_g2_neg",
    "C61_g2_equals",
    "C61_g2_is_infinity",
    "C61_g2_affine"
   ],
   "note": "for every ROM meeting g2_curve; shown for bls381 and bn254, both limb sizes"
  },
  {
   "property": "C62",
   "status": "proved",
   "theorems": [
    "C62_g2_mul",
    "C62_times_facts",
    "C62_g2_mul_commutes",
    "C62_g2_mul_distributes"
   ],
   "note": "mul only; mul4 is not covered by this claim"
  },
  {
   "property": "C63",
   "status": "proved",
   "theorems": [
    "C63_g1mul",
    "C63_subgroup_accepts",
    "C63_subgroup_sound",
    "C63_generator_order",
    "C63_order_three_rejected",
    "C63_outside_subgroup_refuted"
   ],
   "note": "soundness concludes n P = infinity here; C68 strengthens it to membership in the subgroup"
  },
  {
   "property": "C68",
   "status": "proved",
   "theorems": [
    "C68_check_decides_G1",
    "C68_checked_points_multiply",
    "C68_G1_index"
   ],
   "note": "both bls381 limb sizes; no assumption on the number of points of the curve"
  },
  {
   "property": "C69",
   "status": "proved",
   "theorems": [
    "C69_G1_satisfies_the_laws",
    "C69_public_key_bytes",
    "C69_signature_bytes",
    "C69_aggregate_bytes",
    "C69_verify_exact"
   ],
   "note": "the hash to G1 is a parameter (any function whose result is in G1); the other group and the pairing enter through the laws of Spec/BlsSchemeSpec.v"
  },
  {
   "property": "C70",
   "status": "proved",
   "theorems": [
    "C70_key_pair",
    "C70_key_pair_g1_bytes"
   ],
   "note": "the group of the public key enters through the laws of Spec/BlsSchemeSpec.v; for G1 they are proved (C69) and the bytes are given"
  }
 ]
}