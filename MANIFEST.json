{
 "claims": [
  {
   "property": "C01",
   "status": "proved",
   "theorems": [
    "C01_verify_complete"
   ],
   "note": "For every XOF; h has 512 int16 coefficients; the encoding is what Compress returns; c is what hashToPoint returns within the loop bound."
  },
  {
   "property": "C02",
   "status": "partial",
   "theorems": [
    "C02_norm_bound_partial",
    "C02_norm_bound_refuted",
    "C02_wrap_forgery",
    "C02_zero_forgery"
   ],
   "note": "False of the code: the squared norm is accumulated in a uint32 and wraps. C02_norm_bound_refuted gives a witness of squared norm 4297015809, C02_wrap_forgery gives one for every XOF, message and salt, C02_zero_forgery shows s1 = 0 verifies under every key for the hash points of squared norm small modulo 2^32 (C97 counts them, and gives a vector that verifies far more often). C02_norm_bound_partial proves the bound modulo 2^32, hence the bound for vectors of squared norm below 2^32."
  },
  {
   "property": "C03",
   "status": "proved",
   "theorems": [
    "C03_verify_decides",
    "C03_verify_terminates"
   ],
   "note": "s1 is the decoded polynomial reduced to int16, as in the code."
  },
  {
   "property": "C04",
   "status": "partial",
   "theorems": [
    "C04_no_panic_refuted",
    "C04_panics_exactly"
   ],
   "note": "False of the code: C04_no_panic_refuted; C04_panics_exactly characterises the panicking inputs (iff)."
  },
  {
   "property": "C05",
   "status": "partial",
   "theorems": [
    "C05_encoding_ignored",
    "C05_header_ignored",
    "C05_malleable_partial",
    "C05_malleable_refuted"
   ],
   "note": "False of the code: C05_malleable_refuted (other header byte, other length, other padding all accepted). C05_malleable_partial: bytes are determined for full-length zero-padded signatures. C05_header_ignored and C05_encoding_ignored say exactly what is ignored."
  },
  {
   "property": "C06",
   "status": "proved",
   "theorems": [
    "C06_decompress_compress"
   ],
   "note": "fits64: 8*slen does not overflow int64; other slen are reduced to this case by C07_wrapped_lengths."
  },
  {
   "property": "C07",
   "status": "proved",
   "theorems": [
    "C07_code_len",
    "C07_compress_exact",
    "C07_wrapped_lengths"
   ],
   "note": ""
  },
  {
   "property": "C08",
   "status": "proved",
   "theorems": [
    "C08_compress_injective"
   ],
   "note": "Proved without the equal-length assumption."
  },
  {
   "property": "C09",
   "status": "partial",
   "theorems": [
    "C09_canonical_partial",
    "C09_canonical_refuted",
    "C09_unused_bits"
   ],
   "note": "False of the code: C09_canonical_refuted (trailing bits ignored, short strings accepted). C09_canonical_partial characterises exactly the canonical inputs."
  },
  {
   "property": "C10",
   "status": "partial",
   "theorems": [
    "C10_decompress_error",
    "C10_decompress_panics",
    "C10_no_panic_refuted"
   ],
   "note": "False of the code: C10_no_panic_refuted; C10_decompress_panics characterises the panicking inputs (iff)."
  },
  {
   "property": "C11",
   "status": "proved",
   "theorems": [
    "C11_decompress_exact"
   ],
   "note": ""
  },
  {
   "property": "C12",
   "status": "proved",
   "theorems": [
    "C12_hash_never_fails",
    "C12_hash_point",
    "C12_hash_range",
    "C12_hash_unique",
    "C12_rejected_words",
    "C12_uniform_residues"
   ],
   "note": "C12_hash_point is an iff for every XOF; uniformity is the statement that every residue has exactly the five preimages r + j*q."
  },
  {
   "property": "C13",
   "status": "proved",
   "theorems": [
    "C13_signer_verifier_hash"
   ],
   "note": ""
  },
  {
   "property": "C14",
   "status": "proved",
   "theorems": [
    "C14_ntt_evaluates"
   ],
   "note": ""
  },
  {
   "property": "C15",
   "status": "proved",
   "theorems": [
    "C15_intt_ntt",
    "C15_ntt_intt"
   ],
   "note": ""
  },
  {
   "property": "C16",
   "status": "proved",
   "theorems": [
    "C16_mulzq"
   ],
   "note": ""
  },
  {
   "property": "C17",
   "status": "proved",
   "theorems": [
    "C17_divzq_divides",
    "C17_divzq_fails"
   ],
   "note": ""
  },
  {
   "property": "C18",
   "status": "proved",
   "theorems": [
    "C18_subzq",
    "C18_subzq_panics"
   ],
   "note": "With the ranges f <= 20479 and g >= -32767 under which no int16 operation overflows."
  },
  {
   "property": "C19",
   "status": "partial",
   "theorems": [
    "C19_subzq_entries",
    "C19_subzq_refuted"
   ],
   "note": "False of the code: C19_subzq_refuted; C19_subzq_entries says exactly which entries are right (iff)."
  },
  {
   "property": "C20",
   "status": "proved",
   "theorems": [
    "C20_public_key"
   ],
   "note": ""
  },
  {
   "property": "C21",
   "status": "partial",
   "theorems": [
    "C21_unusable_key_refuted",
    "C21_witness_refuted"
   ],
   "note": "False of the code: for every non-invertible f the key with h = nil is returned (C21_unusable_key_refuted, concrete C21_witness_refuted)."
  },
  {
   "property": "C22",
   "status": "proved",
   "theorems": [
    "C22_degrees",
    "C22_from_private",
    "C22_generate",
    "C22_get_private_key",
    "C22_new_key_pair",
    "C22_param_set",
    "C22_sigbound",
    "C22_valid_degree"
   ],
   "note": "isValidDegree, GetParamSet, GetPrivateKey, GeneratePrivateKey, NewKeyPair and NewKeyPairFromPrivateKey; for the randomised ones for every random stream, rounding behaviour and loop bound."
  },
  {
   "property": "C23",
   "status": "partial",
   "theorems": [
    "C23_lengths_partial",
    "C23_lengths_refuted"
   ],
   "note": "False of the code: C23_lengths_refuted; C23_lengths_partial says exactly what is checked (iff)."
  },
  {
   "property": "C24",
   "status": "proved",
   "theorems": [
    "C24_accepts"
   ],
   "note": ""
  },
  {
   "property": "C25",
   "status": "partial",
   "theorems": [
    "C25_key_pair_refuted",
    "C25_returned_partial",
    "C25_total"
   ],
   "note": "False of the code: NewKeyPair always returns a nil public key. C25_key_pair_refuted is a run in binary64 that returns (key, nil); C25_returned_partial: every successful call returns the key GeneratePrivateKey found and nil; C25_total: it does so whenever the key is found."
  },
  {
   "property": "C26",
   "status": "partial",
   "theorems": [
    "C26_always_nil",
    "C26_from_private_refuted"
   ],
   "note": "False of the code: C26_always_nil, every successful call returns (nil, nil); C26_from_private_refuted: for every valid degree and int16 polynomials of that length the call succeeds with (nil, nil)."
  },
  {
   "property": "C27",
   "status": "proved",
   "theorems": [
    "C27_verify_bytes_any",
    "C27_verify_bytes_packed"
   ],
   "note": ""
  },
  {
   "property": "C28",
   "status": "partial",
   "theorems": [
    "C28_no_panic_refuted",
    "C28_panics_exactly"
   ],
   "note": "False of the code: C28_no_panic_refuted (every input shorter than 55104 bytes); C28_panics_exactly covers the longer ones (iff)."
  },
  {
   "property": "C29",
   "status": "proved",
   "theorems": [
    "C29_karatsuba",
    "C29_other_lengths"
   ],
   "note": "C29_other_lengths covers the remaining n: panic, or no return for n = 0."
  },
  {
   "property": "C30",
   "status": "proved",
   "theorems": [
    "C30_karamul",
    "C30_lengths"
   ],
   "note": "C30_lengths gives the result for every length of b."
  },
  {
   "property": "C31",
   "status": "proved",
   "theorems": [
    "C31_field_norm",
    "C31_lift_conj"
   ],
   "note": "fieldNorm, lift and galoisConjugate."
  },
  {
   "property": "C32",
   "status": "proved",
   "theorems": [
    "C32_xgcd"
   ],
   "note": "With the exact condition for d < 0."
  },
  {
   "property": "C33",
   "status": "partial",
   "theorems": [
    "C33_ntru_solve_partial",
    "C33_ntru_solve_refuted",
    "C33_right_hand_side",
    "C33_wrong_answer"
   ],
   "note": "False of the code: the test is d.Int64() != 1, so d = 1 modulo 2^64 is accepted. C33_ntru_solve_refuted is a witness of degree 4; C33_wrong_answer covers every degree >= 2 and every rounding behaviour. C33_ntru_solve_partial proves the equation when the gcd of the norms is below 2^64-1; C33_right_hand_side gives the right-hand side q*d in all cases. C102_solve: at degrees 2, 4 and 8 the hypothesis on the gcd is not needed for f, g of squared norm at most 27000."
  },
  {
   "property": "C34",
   "status": "partial",
   "theorems": [
    "C34_code_error",
    "C34_code_no_panic",
    "C34_no_panic",
    "C34_solve_error_exact",
    "C34_solve_error_partial",
    "C34_solve_error_refuted"
   ],
   "note": "Proved for every degree >= 2 (with an iff, C34_solve_error_exact); false at degree 1 (C34_solve_error_refuted). C34_no_panic: no panics when the quotient function returns a vector of the right length; C34_code_error and C34_code_no_panic are the statements for the quotient the code computes, whatever the rounding."
  },
  {
   "property": "C35",
   "status": "proved",
   "theorems": [
    "C35_reduce"
   ],
   "note": "For every quotient function and any number of rounds."
  },
  {
   "property": "C36",
   "status": "partial",
   "theorems": [
    "C36_criterion",
    "C36_equation_refuted",
    "C36_fits_partial",
    "C36_generated_partial",
    "C36_norm_checked"
   ],
   "note": "False of the code: F and G are truncated to int16. C36_equation_refuted is a random stream for which the binary64 run returns a key of degree 16 with f*G - g*F <> q. C36_generated_partial: f is invertible and the equation holds modulo 2^16; C36_criterion: the equation holds iff no coefficient is off by 2^16; C36_fits_partial: it holds when the solver's integers fit int16 and the gcd of the norms is below 2^64-1. C102_generated, C102_keys: no hypothesis on the gcd at degrees 2, 4 and 8. C104_wrong: at every degree from 16 some stream gives no correct key. C108_wrong_key: at every degree from 16 some stream gives a returned key whose f, g have no solution."
  },
  {
   "property": "C37",
   "status": "proved",
   "theorems": [
    "C37_distribution",
    "C37_range"
   ],
   "note": "The exact value of basesampler is the number of table entries above the 72-bit integer, and the exact number of draws giving each value is proved."
  },
  {
   "property": "C38",
   "status": "partial",
   "theorems": [
    "C38_approxexp_refuted",
    "C38_never_close",
    "C38_single_bit",
    "C38_value_partial"
   ],
   "note": "False of the code: the products are reduced modulo 2^64 before the shift by 63, so the result is 0 or 1. C38_approxexp_refuted is the witness, C38_value_partial and C38_single_bit say what the function returns, C38_never_close says it is never within the claimed error."
  },
  {
   "property": "C39",
   "status": "partial",
   "theorems": [
    "C39_acceptance",
    "C39_berexp_refuted",
    "C39_ccs_ignored_partial"
   ],
   "note": "False of the code: C39_berexp_refuted. C39_acceptance is the exact acceptance condition; C39_ccs_ignored_partial says which scale factors have no effect."
  },
  {
   "property": "C40",
   "status": "proved",
   "theorems": [
    "C40_range",
    "C40_range_any",
    "C40_wrapped"
   ],
   "note": "In binary64 (Flocq), for every random source and for every out-of-range conversion result."
  },
  {
   "property": "C41",
   "status": "proved",
   "theorems": [
    "C41_sums",
    "C41_wrapped_sums"
   ],
   "note": "For every random source; the coefficients are the sums of the blocks' samples."
  },
  {
   "property": "C42",
   "status": "proved",
   "theorems": [
    "C42_bound",
    "C42_no_panic"
   ],
   "note": "In binary64, for every finite input within the stated bounds."
  },
  {
   "property": "C43",
   "status": "proved",
   "theorems": [
    "C43_fft",
    "C43_fft_ifft",
    "C43_ifft",
    "C43_roots",
    "C43_tables"
   ],
   "note": "Over the exact real numbers, for every degree 2^k with k <= 10; C43_tables bounds the distance of the stored table constants from the exact roots."
  },
  {
   "property": "C44",
   "status": "proved",
   "theorems": [
    "C44_adj",
    "C44_adj_meaning",
    "C44_div",
    "C44_mul",
    "C44_sum"
   ],
   "note": "Over the exact real numbers with exact roots, for every degree 2^k with k <= 10."
  },
  {
   "property": "C45",
   "status": "proved",
   "theorems": [
    "C45_gram",
    "C45_hermitian"
   ],
   "note": "Over the exact real numbers with exact roots."
  },
  {
   "property": "C46",
   "status": "proved",
   "theorems": [
    "C46_ldl"
   ],
   "note": "Over the exact real numbers."
  },
  {
   "property": "C47",
   "status": "partial",
   "theorems": [
    "C47_right_half",
    "C47_tree_refuted",
    "C47_two_partial"
   ],
   "note": "False of the code at every degree n >= 4 (C47_tree_refuted, any matrix and rounding): Value has length 2. C47_right_half says what is left: the tree of the right half of D. C47_two_partial: right at degree 2."
  },
  {
   "property": "C48",
   "status": "partial",
   "theorems": [
    "C48_panic_refuted",
    "C48_sampling_refuted",
    "C48_short_partial"
   ],
   "note": "False of the code: at every degree n >= 4 no call returns (C48_sampling_refuted); C48_panic_refuted is a panicking run in binary64. C48_short_partial: for every tree a call returns only if the vector is not longer than Value."
  },
  {
   "property": "C49",
   "status": "proved",
   "theorems": [
    "C49_integer"
   ],
   "note": ""
  },
  {
   "property": "C50",
   "status": "partial",
   "theorems": [
    "C50_normalize_refuted",
    "C50_right_leaf",
    "C50_short_leaf",
    "C50_three_partial"
   ],
   "note": "False of the code: the right leaf is never written (C50_right_leaf for every tree; C50_normalize_refuted a witness). C50_three_partial: an argument of three elements would be normalised. C50_short_leaf: panic on a short left leaf."
  },
  {
   "property": "C51",
   "status": "partial",
   "theorems": [
    "C51_forward",
    "C51_intt2_exact",
    "C51_split_exact",
    "C51_word_size_partial",
    "C51_word_size_refuted"
   ],
   "note": "False of the code: C51_word_size_refuted. What holds: the forward transform and the pointwise operations do not depend on the word size (C51_forward); SplitNTT and the last level of INTT agree exactly when one product fits in 32 bits (C51_split_exact, C51_intt2_exact); Verify agrees whenever INTT does on the product (C51_word_size_partial)."
  },
  {
   "property": "C52",
   "status": "proved",
   "theorems": [
    "C52_no_overflow"
   ],
   "note": "Stated as independence from the behaviour outside the int64 range."
  },
  {
   "property": "C53",
   "status": "proved",
   "theorems": [
    "C53_key_mod_q",
    "C53_other_lengths"
   ],
   "note": ""
  },
  {
   "property": "C54",
   "status": "proved",
   "theorems": [
    "C54_merge_split",
    "C54_split_merge",
    "C54_totality"
   ],
   "note": ""
  },
  {
   "property": "C55",
   "status": "proved",
   "theorems": [
    "C55_pmod",
    "C55_pmod_zero"
   ],
   "note": ""
  },
  {
   "property": "C56",
   "status": "proved",
   "theorems": [
    "C56_bitsize"
   ],
   "note": ""
  },
  {
   "property": "C57",
   "status": "proved",
   "theorems": [
    "C57_cmp",
    "C57_equal",
    "C57_max",
    "C57_max_big",
    "C57_min_big",
    "C57_panics",
    "C57_zeroes"
   ],
   "note": ""
  },
  {
   "property": "C58",
   "status": "partial",
   "theorems": [
    "C58_every_write",
    "C58_other_arrays_partial",
    "C58_refuted",
    "C58_tracks",
    "C58_value"
   ],
   "note": "False of the code: GetPrivateKey stores the caller's slice headers. C58_every_write: for every key, a write of a new value at any index of f shows in the key; C58_refuted is a witness; C58_tracks: the key is always what the caller's slices hold; C58_other_arrays_partial: histories of writes to other arrays leave it unchanged; C58_value links to the list model."
  },
  {
   "property": "C59",
   "status": "proved",
   "theorems": [
    "C59_Karatsuba",
    "C59_fieldNorm",
    "C59_galoisConjugate",
    "C59_karamul",
    "C59_lift"
   ],
   "note": "On a heap where every *big.Int is a pointer and every slice an array of pointers, with no hypothesis on sharing, nil pointers or lengths: every integer and array that existed before the call is unchanged after Karatsuba, karamul, fieldNorm, galoisConjugate, lift. Calls that panic have no final heap in the model."
  },
  {
   "property": "C60",
   "status": "proved",
   "theorems": [
    "C60_NtruSolve",
    "C60_NtruSolve_code",
    "C60_fieldNorm",
    "C60_galoisConjugate",
    "C60_karamul",
    "C60_lift",
    "C60_lift_shares"
   ],
   "note": "Heap model against list model, including panics and divergence; NtruSolve for every quotient without an error result and for the code's quotient; C60_lift_shares records that lift aliases its argument."
  },
  {
   "property": "C61",
   "status": "proved",
   "theorems": [
    "C61_aliased_refuted",
    "C61_reduce"
   ],
   "note": "C61_aliased_refuted shows the sharing hypothesis is needed."
  },
  {
   "property": "C62",
   "status": "partial",
   "theorems": [
    "C62_extrema_partial",
    "C62_extrema_refuted",
    "C62_leading_nan",
    "C62_panics"
   ],
   "note": "False for slices that start with NaN (C62_extrema_refuted, C62_leading_nan); proved for slices whose first element is not NaN (C62_extrema_partial) and for the panics."
  },
  {
   "property": "C63",
   "status": "partial",
   "theorems": [
    "C63_int16_refuted",
    "C63_neg_exact",
    "C63_square_exact",
    "C63_sub_exact",
    "C63_sub_panics"
   ],
   "note": "False of the code (int16 overflow): C63_int16_refuted; the other theorems give exactly the inputs for which each helper is exact."
  },
  {
   "property": "C64",
   "status": "partial",
   "theorems": [
    "C64_hex_content",
    "C64_hex_length",
    "C64_hex_panics",
    "C64_salt_refuted"
   ],
   "note": "False of the code: the salt is nil (C64_salt_refuted) and the string has 2n digits (C64_hex_length); C64_hex_content says which."
  },
  {
   "property": "C65",
   "status": "proved",
   "theorems": [
    "C65_rand_element",
    "C65_random_fft"
   ],
   "note": "For every slice and draw; crypto/rand.Int is a parameter with its documented range."
  },
  {
   "property": "C66",
   "status": "partial",
   "theorems": [
    "C66_no_panic_refuted",
    "C66_print_tree"
   ],
   "note": "False for a tree that is a single leaf (C66_no_panic_refuted); C66_print_tree gives the exact result for every input. fmt.Sprint is a parameter."
  },
  {
   "property": "C67",
   "status": "proved",
   "theorems": [
    "C67_complex",
    "C67_parts",
    "C67_roundtrip",
    "C67_truncates",
    "C67_uint",
    "C67_uint_panics"
   ],
   "note": "The conversion of a float64 outside int16 is left open, as in the language."
  },
  {
   "property": "C68",
   "status": "proved",
   "theorems": [
    "C68_leaves",
    "C68_nearest_plane",
    "C68_tree_exists"
   ],
   "note": "In exact arithmetic with the exact roots of x^n+1, for every basis and target; C68_tree_exists: every basis with invertible determinant has a tree; C68_leaves bounds the leaves by the basis. The tree is the specification's: FfldlFFT does not build one (C47, C48)."
  },
  {
   "property": "C69",
   "status": "proved",
   "theorems": [
    "C69_base_sampler",
    "C69_never_returns",
    "C69_reject_bound",
    "C69_result_counts",
    "C69_returns",
    "C69_round_counts",
    "C69_unfinished_counts"
   ],
   "note": "Counts are exact for every mu, sigma and sigmin allowed, with binary64 arithmetic; the termination part needs 1/2 < sigmin/sigma < 1."
  },
  {
   "property": "C70",
   "status": "partial",
   "theorems": [
    "C70_not_gaussian",
    "C70_parameters",
    "C70_symmetric_refuted",
    "C70_weights"
   ],
   "note": "False: C70_symmetric_refuted. C70_weights gives the exact weight of each of the 38 values; 0 and 1 are equally likely and the mean is negative."
  },
  {
   "property": "C71",
   "status": "proved",
   "theorems": [
    "C71_fft",
    "C71_ifft",
    "C71_integers",
    "C71_round_trip"
   ],
   "note": "Binary64 with the decimal tables of the source; coefficients up to 2^100, degrees 2 to 1024."
  },
  {
   "property": "C72",
   "status": "proved",
   "theorems": [
    "C72_adj",
    "C72_gram",
    "C72_integer_mul",
    "C72_mul"
   ],
   "note": "Binary64; coefficients up to 2^100, degrees 2 to 1024; Gram for up to 1000 columns."
  },
  {
   "property": "C73",
   "status": "partial",
   "theorems": [
    "C73_near_partial",
    "C73_round_refuted",
    "C73_truncates"
   ],
   "note": "False: C73_round_refuted (2 comes back from IFFT as 2-2^-52 and is truncated to 1). C73_truncates: it truncates; C73_near_partial: exactly the values not below the integer in absolute value are right."
  },
  {
   "property": "C74",
   "status": "proved",
   "theorems": [
    "C74_gs_norm",
    "C74_invertible"
   ],
   "note": "Exact real arithmetic and exact roots of x^n+1; f f* + g g* invertible (C74_invertible: implied by the NTRU equation)."
  },
  {
   "property": "C75",
   "status": "proved",
   "theorems": [
    "C75_reduce_rounds",
    "C75_reduce_size",
    "C75_solve_size"
   ],
   "note": "Exact real arithmetic and exact roots of x^n+1, n*GsNorm <= 2^30 (NtruGen: 16823). C77 and C78 are the floating-point versions."
  },
  {
   "property": "C76",
   "status": "partial",
   "theorems": [
    "C76_keygen_refuted",
    "C76_reduce_terminates_iff",
    "C76_terminates_refuted",
    "C76_units_diverge"
   ],
   "note": "False: C76_terminates_refuted, C76_keygen_refuted and C76_units_diverge, in binary64. C76_reduce_terminates_iff: in exact arithmetic reduce returns iff no coefficient of the best multiplier is halfway between two integers. C104_hang: key generation loops for some stream at every degree from 8."
  },
  {
   "property": "C77",
   "status": "proved",
   "theorems": [
    "C77_keys",
    "C77_reduce_rounds",
    "C77_solve_size"
   ],
   "note": "Binary64 with the decimal tables of the source, degrees 2 to 1024; C77_keys also needs gcd(N(f), N(g)) < 2^64-1, as C36. The exact Gram-Schmidt norm is a hypothesis, not the computed one; C81_keys relates the two."
  },
  {
   "property": "C78",
   "status": "proved",
   "theorems": [
    "C78_reduce_exact"
   ],
   "note": "Binary64 with the decimal tables of the source, degrees 2 to 1024. On ties see C76."
  },
  {
   "property": "C79",
   "status": "proved",
   "theorems": [
    "C79_neg",
    "C79_sub",
    "C79_sub_panics"
   ],
   "note": "Binary64 for the values, any floats for the panics."
  },
  {
   "property": "C80",
   "status": "partial",
   "theorems": [
    "C80_decimal_partial",
    "C80_decimal_refuted",
    "C80_octal"
   ],
   "note": "False: C80_decimal_refuted (010 becomes 8). C80_decimal_partial: true without a leading zero; C80_octal: with a leading zero the octal value, and no certain value when a digit is 8 or 9. The model of SetString follows its documentation."
  },
  {
   "property": "C81",
   "status": "proved",
   "theorems": [
    "C81_gs_norm",
    "C81_keys",
    "C81_short",
    "C81_test"
   ],
   "note": "Binary64 with the decimal tables of the source, degrees 2 to 1024. Nothing is claimed on the computed norm when the exact one is above 10^6; C81_short holds anyway. C81_keys needs gcd(N(f), N(g)) < 2^64-1, as C36."
  },
  {
   "property": "C82",
   "status": "proved",
   "theorems": [
    "C82_complex_div"
   ],
   "note": "Binary64. The model of the division follows the Go runtime (complex128 division by Smith's algorithm)."
  },
  {
   "property": "C83",
   "status": "proved",
   "theorems": [
    "C83_calls",
    "C83_sampling"
   ],
   "note": "The values in exact arithmetic; C83_calls holds for any floats. The recursion passes the tree itself, not its children, so the values and the deviation are those of the root at every level: this is not the sampling of the Falcon specification (see C46-C48)."
  },
  {
   "property": "C84",
   "status": "proved",
   "theorems": [
    "C84_min",
    "C84_narrow",
    "C84_round_all",
    "C84_sqnorm",
    "C84_to_float"
   ],
   "note": "Binary64."
  },
  {
   "property": "C85",
   "status": "proved",
   "theorems": [
    "C85_pointwise",
    "C85_ring",
    "C85_rounded"
   ],
   "note": "C85_pointwise for any floats, C85_ring over the exact real numbers, C85_rounded in binary64."
  },
  {
   "property": "C86",
   "status": "proved",
   "theorems": [
    "C86_ntt_linear"
   ],
   "note": ""
  },
  {
   "property": "C87",
   "status": "proved",
   "theorems": [
    "C87_basis",
    "C87_data",
    "C87_lattice"
   ],
   "note": "C87_data for any floats, C87_basis in binary64, C87_lattice over the integers. C87_lattice assumes the NTRU equation, which the code does not guarantee (C36), and an invertible f (C21)."
  },
  {
   "property": "C88",
   "status": "proved",
   "theorems": [
    "C88_literals",
    "C88_ratio",
    "C88_sigbound",
    "C88_sigma"
   ],
   "note": ""
  },
  {
   "property": "C89",
   "status": "proved",
   "theorems": [
    "C89_above_18",
    "C89_half_gaussian",
    "C89_total",
    "C89_values"
   ],
   "note": ""
  },
  {
   "property": "C90",
   "status": "proved",
   "theorems": [
    "C90_comment_refuted",
    "C90_documented_algorithm",
    "C90_ln2",
    "C90_table"
   ],
   "note": "C90_comment_refuted: the comment above C read literally is false. approxexp itself is far from exp (C38)."
  },
  {
   "property": "C91",
   "status": "proved",
   "theorems": [
    "C91_blocks",
    "C91_first_accepted",
    "C91_genpoly",
    "C91_key",
    "C91_rounds",
    "C91_split",
    "C91_split_panics"
   ],
   "note": ""
  },
  {
   "property": "C92",
   "status": "proved",
   "theorems": [
    "C92_complete",
    "C92_distance",
    "C92_inputs",
    "C92_leaves",
    "C92_nearest_plane_signs",
    "C92_sound"
   ],
   "note": "nearest plane part: exact real arithmetic, tree in the form FfnpFFT reads (C47: FfldlFFT does not build it)"
  },
  {
   "property": "C93",
   "status": "proved",
   "theorems": [
    "C93_nearest_plane",
    "C93_recovered",
    "C93_returns",
    "C93_sampling"
   ],
   "note": ""
  },
  {
   "property": "C94",
   "status": "proved",
   "theorems": [
    "C94_another_signature",
    "C94_short_vector",
    "C94_with_the_key"
   ],
   "note": ""
  },
  {
   "property": "C95",
   "status": "proved",
   "theorems": [
    "C95_generated",
    "C95_signs_everything"
   ],
   "note": "existence of a signature; the signer of the code does not find it (C42, C47). The hypothesis on the gcd of the norms is needed: C109_unsignable"
  },
  {
   "property": "C96",
   "status": "proved",
   "theorems": [
    "C96_exact_unique",
    "C96_float_solve",
    "C96_multipliers",
    "C96_not_invertible_refuted",
    "C96_solutions"
   ],
   "note": "C96_not_invertible_refuted: the hypothesis on f is needed"
  },
  {
   "property": "C97",
   "status": "proved",
   "theorems": [
    "C97_forgery",
    "C97_points_hashed",
    "C97_short_rare"
   ],
   "note": "counts over hash points; that SHAKE spreads them evenly is not modelled"
  },
  {
   "property": "C98",
   "status": "proved",
   "theorems": [
    "C98_forgery",
    "C98_forgery_rate",
    "C98_returns",
    "C98_short_rare",
    "C98_uniform"
   ],
   "note": "counts over streams; that SHAKE256 output is uniform is not modelled"
  },
  {
   "property": "C99",
   "status": "proved",
   "theorems": [
    "C99_forgery_keys",
    "C99_key_substitution",
    "C99_short_keys"
   ],
   "note": "counts over arbitrary keys, not over generated ones"
  },
  {
   "property": "C100",
   "status": "proved",
   "theorems": [
    "C100_invertible",
    "C100_public_keys"
   ],
   "note": ""
  },
  {
   "property": "C101",
   "status": "proved",
   "theorems": [
    "C101_count",
    "C101_key_independent"
   ],
   "note": "points, not messages: that SHAKE256 spreads messages evenly is not modelled"
  },
  {
   "property": "C102",
   "status": "proved",
   "theorems": [
    "C102_generated",
    "C102_keys",
    "C102_norm_size",
    "C102_solve"
   ],
   "note": "C102_keys keeps the hypothesis of C81 on the exact Gram-Schmidt norm"
  },
  {
   "property": "C103",
   "status": "proved",
   "theorems": [
    "C103_attempts",
    "C103_forger",
    "C103_short"
   ],
   "note": "tuples of points, as if the hash were a random oracle: SHAKE256 itself is not modelled"
  },
  {
   "property": "C104",
   "status": "proved",
   "theorems": [
    "C104_any_pair",
    "C104_hang",
    "C104_outputs",
    "C104_wrong"
   ],
   "note": "binary64 with the decimal tables of the source. C104_wrong leaves open, for its pair, whether a wrong key is returned or the run does not end; C108_wrong_key gives another pair for which a wrong key is returned. At degrees 2, 4 and 8 returned keys are right (C102)"
  },
  {
   "property": "C105",
   "status": "proved",
   "theorems": [
    "C105_deterministic",
    "C105_keygen",
    "C105_sampling",
    "C105_verify"
   ],
   "note": ""
  },
  {
   "property": "C106",
   "status": "proved",
   "theorems": [
    "C106_determined",
    "C106_keys"
   ],
   "note": "binary64 with the decimal tables of the source. The norm test is on the computed norm (C81 relates it to the exact one); when NtruSolve is right is C36, C102 and C104"
  },
  {
   "property": "C107",
   "status": "proved",
   "theorems": [
    "C107_fractions",
    "C107_same_public",
    "C107_solutions"
   ],
   "note": "over the integers; that generated keys satisfy the NTRU equation is C36 and C102"
  },
  {
   "property": "C108",
   "status": "proved",
   "theorems": [
    "C108_wrong_key",
    "C108_zero_key"
   ],
   "note": "binary64 with the decimal tables of the source for the first part; one stream per degree, given explicitly. The second part is for degree 512, the only one Verify supports"
  },
  {
   "property": "C109",
   "status": "proved",
   "theorems": [
    "C109_longest",
    "C109_unsignable",
    "C109_zero_key"
   ],
   "note": "C109_zero_key is for the zero public key, C109_unsignable adds the stream that produces it in binary64. Signatures are byte strings (header, 40-byte salt, body)"
  }
 ]
}