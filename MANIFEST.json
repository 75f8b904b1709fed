{
 "claims": [
  {
   "property": "C01",
   "status": "proved",
   "theorems": [
    "C01_key_remembers_word"
   ],
   "note": "every N in 1..2^32-1, every profile"
  },
  {
   "property": "C02",
   "status": "proved",
   "theorems": [
    "C02_key_eq_word_eq"
   ],
   "note": ""
  },
  {
   "property": "C03",
   "status": "partial",
   "theorems": [
    "C03_concatenate_refuted",
    "C03_monoid_partial",
    "C54_concatenate_exact"
   ],
   "note": "REFUTED as stated: for N>=2^31 the empty key is not a left unit in builds with overflow checks (C03_concatenate_refuted). Proved: associativity, units and degree for every N<2^31 (C03_monoid_partial), exact description for all N in C54."
  },
  {
   "property": "C04",
   "status": "proved",
   "theorems": [
    "C04_push_front",
    "C04_build_by_push_front"
   ],
   "note": ""
  },
  {
   "property": "C05",
   "status": "proved",
   "theorems": [
    "C05_max_depth_sound",
    "C05_too_long_panics",
    "C05_bad_letter_panics"
   ],
   "note": ""
  },
  {
   "property": "C06",
   "status": "partial",
   "theorems": [
    "C06_to_letters_refuted",
    "C55_to_letters_reversed"
   ],
   "note": "REFUTED: to_letters returns the letters in reverse order (C06_to_letters_refuted); exact behaviour is C55."
  },
  {
   "property": "C07",
   "status": "partial",
   "theorems": [
    "C07_guarded_partial",
    "C07_any_key_valid_refuted"
   ],
   "note": "REFUTED: from_letter, index_to_key and concatenate accept arguments that give keys outside the alphabet or longer than max_depth, in every profile (C07_any_key_valid_refuted). Proved for calls with arguments in range (C07_guarded_partial)."
  },
  {
   "property": "C08",
   "status": "partial",
   "theorems": [
    "C08_debug_text",
    "C08_debug_injective",
    "C08_display_refuted"
   ],
   "note": "{:?}: proved (C08_debug_text, C08_debug_injective). {} REFUTED: Display::fmt calls itself and never returns (C08_display_refuted)."
  },
  {
   "property": "C09",
   "status": "proved",
   "theorems": [
    "C09_key_index_key",
    "C09_index_key_index"
   ],
   "note": ""
  },
  {
   "property": "C10",
   "status": "proved",
   "theorems": [
    "C10_index_is_position",
    "C10_position_is_key",
    "C10_enumeration"
   ],
   "note": "C10_enumeration checks the specification list itself"
  },
  {
   "property": "C11",
   "status": "proved",
   "theorems": [
    "C11_start_of_degree",
    "C11_degree_range",
    "C11_panics"
   ],
   "note": ""
  },
  {
   "property": "C12",
   "status": "proved",
   "theorems": [
    "C12_index_to_degree",
    "C12_otherwise_panics"
   ],
   "note": "C12_otherwise_panics: the range condition is necessary in builds with overflow checks"
  },
  {
   "property": "C13",
   "status": "proved",
   "theorems": [
    "C13_dimension_for_key",
    "C13_overflow_panics"
   ],
   "note": "for keys whose dimension fits in 64 bits; otherwise checked builds panic (C13_overflow_panics)"
  },
  {
   "property": "C14",
   "status": "partial",
   "theorems": [
    "C14_compare_refuted",
    "C14_same_degree_partial",
    "C56_compare_exact",
    "C56_preorder"
   ],
   "note": "REFUTED between keys of different length (C14_compare_refuted); proved for keys of one degree (C14_same_degree_partial); exact behaviour is C56."
  },
  {
   "property": "C15",
   "status": "partial",
   "theorems": [
    "C15_iter_refuted",
    "C57_prefix",
    "C57_one_letter"
   ],
   "note": "REFUTED for every N>=2 (C15_iter_refuted gives the position of the first wrong item); the correct prefix and the N=1 case are C57."
  },
  {
   "property": "C54",
   "status": "proved",
   "theorems": [
    "C54_concatenate_exact"
   ],
   "note": ""
  },
  {
   "property": "C55",
   "status": "proved",
   "theorems": [
    "C55_to_letters_reversed",
    "C55_roundtrip_iff_palindrome"
   ],
   "note": ""
  },
  {
   "property": "C56",
   "status": "proved",
   "theorems": [
    "C56_compare_exact",
    "C56_preorder",
    "C14_same_degree_partial"
   ],
   "note": ""
  },
  {
   "property": "C57",
   "status": "proved",
   "theorems": [
    "C57_prefix",
    "C57_one_letter",
    "C57_starting_from",
    "C15_iter_refuted"
   ],
   "note": ""
  },
  {
   "property": "C16",
   "status": "proved",
   "theorems": [
    "C16_from_key_scalar",
    "C16_from_key",
    "C16_overflow_panics"
   ],
   "note": "for keys whose dimension fits in 64 bits; C16_overflow_panics: otherwise checked builds panic (unchecked builds: see C58)"
  },
  {
   "property": "C17",
   "status": "proved",
   "theorems": [
    "C17_from_iterator"
   ],
   "note": ""
  },
  {
   "property": "C18",
   "status": "proved",
   "theorems": [
    "C18_add_inplace",
    "C18_sub_inplace",
    "C18_add_sub"
   ],
   "note": "law-free: for every scalar type, whatever its operations compute"
  },
  {
   "property": "C19",
   "status": "proved",
   "theorems": [
    "C19_inplace",
    "C19_owned"
   ],
   "note": ""
  },
  {
   "property": "C20",
   "status": "proved",
   "theorems": [
    "C20_fused"
   ],
   "note": ""
  },
  {
   "property": "C21",
   "status": "proved",
   "theorems": [
    "C21_erase",
    "C21_clear",
    "C21_swap_owned",
    "C21_as_read"
   ],
   "note": ""
  },
  {
   "property": "C22",
   "status": "partial",
   "theorems": [
    "C22_insert_single_refuted",
    "C22_insert_exact"
   ],
   "note": "REFUTED: insert_single changes nothing and insert panics, for every vector, key and value (C22_insert_single_refuted, C22_insert_exact)."
  },
  {
   "property": "C23",
   "status": "partial",
   "theorems": [
    "C23_key_ext_refuted",
    "C23_key_ext_exact",
    "C23_key_ext_partial"
   ],
   "note": "REFUTED when the key lies outside the stored size, where nothing is added, and for sub_scalar_divide, which adds 1/r instead of subtracting it (C23_key_ext_refuted); exact behaviour C23_key_ext_exact; the claim for stored keys, with the wrong sign of sub_scalar_divide, C23_key_ext_partial."
  },
  {
   "property": "C24",
   "status": "partial",
   "theorems": [
    "C24_equality_refuted",
    "C24_equality_exact",
    "C24_same_size_partial"
   ],
   "note": "REFUTED: vectors with equal coefficients but different stored sizes are unequal (C24_equality_refuted); exact behaviour C24_equality_exact; the claim for equal sizes C24_same_size_partial."
  },
  {
   "property": "C25",
   "status": "partial",
   "theorems": [
    "C25_same_coefficients",
    "C25_same_vectors",
    "C25_clear_refuted",
    "C25_borrowed_protected",
    "C25_borrowed_mut_sees_updates"
   ],
   "note": "REFUTED for a clear followed by a write through get_mut, since clear keeps the size of a BorrowedMut buffer only (C25_clear_refuted). Proved: every single operation gives the same coefficients for all storage kinds, every history without clear gives the same vector, a Borrowed buffer never changes, a BorrowedMut buffer shows exactly the operations before the first one that needs another size, and keeps its length."
  },
  {
   "property": "C26",
   "status": "proved",
   "theorems": [
    "C26_refinement",
    "C26_coefficients",
    "C26_insert"
   ],
   "note": "C26_refinement needs no laws of scalars; C26_coefficients is the field version on coefficient functions"
  },
  {
   "property": "C27",
   "status": "proved",
   "theorems": [
    "C27_vector_space"
   ],
   "note": "as equality of the stored slices, which is stronger than equality of coefficients"
  },
  {
   "property": "C28",
   "status": "partial",
   "theorems": [
    "C28_get_refuted",
    "C28_get_never_returns",
    "C28_delegation_partial"
   ],
   "note": "REFUTED for get, get_mut and all of VectorKeyExt, which never return (C28_get_refuted, C28_get_never_returns). Every other operation delegates (C28_delegation_partial)."
  },
  {
   "property": "C58",
   "status": "partial",
   "theorems": [
    "C58_from_key_exact",
    "C58_from_iterator_exact",
    "C58_memory_safety_refuted",
    "C58_wrapped_dimension_refuted",
    "C58_words_checked_partial"
   ],
   "note": "REFUTED: in every build and for every alphabet of 2..2^32-2 letters, from_key of from_letter(N+1) writes out of bounds (C58_memory_safety_refuted); without overflow checks also the valid word 11 over 2^32-1 letters (C58_wrapped_dimension_refuted). Exactly when it happens, for any ordered basis: C58_from_key_exact, C58_from_iterator_exact. Words over the alphabet are safe with overflow checks (C58_words_checked_partial)."
  },
  {
   "property": "C59",
   "status": "proved",
   "theorems": [
    "C59_degree",
    "C59_empty",
    "C59_resized"
   ],
   "note": ""
  },
  {
   "property": "C60",
   "status": "partial",
   "theorems": [
    "C60_display_refuted",
    "C60_display_empty_partial"
   ],
   "note": "REFUTED for every non-empty vector: never returns (C60_display_refuted); the empty vector prints nothing (C60_display_empty_partial)."
  },
  {
   "property": "C29",
   "status": "proved",
   "theorems": [
    "C29_add_mul",
    "C29_sub_mul",
    "C29_multiply",
    "C29_convolution",
    "C29_read"
   ],
   "note": "law-free (terms in the order of the additions): C29_add_mul, C29_sub_mul, C29_multiply; over a ring the sum of the terms is the convolution (C29_convolution); C29_read: what get reads"
  },
  {
   "property": "C30",
   "status": "partial",
   "theorems": [
    "C30_exact",
    "C30_multiply_exact",
    "C30_memory_safety_refuted",
    "C30_overflow_panics",
    "C30_wrapped_size_refuted"
   ],
   "note": "REFUTED: multiplying two units, two empty vectors or two vectors whose top degree is not completely stored is undefined behaviour in every build (C30_memory_safety_refuted); without overflow checks also for wrapped sizes (C30_wrapped_size_refuted). Exactly when: C62."
  },
  {
   "property": "C31",
   "status": "proved",
   "theorems": [
    "C31_basis_product",
    "C31_truncated"
   ],
   "note": "for degree(k1)+degree(k2) >= 1 and products whose size fits in 64 bits; over every commutative ring"
  },
  {
   "property": "C32",
   "status": "proved",
   "theorems": [
    "C32_associative",
    "C32_bilinear",
    "C32_unit"
   ],
   "note": "equality of the resulting vectors, over every commutative ring; at least one factor of each product must have degree >= 1 (otherwise the product is undefined behaviour, C30); multiplying by the unit truncates"
  },
  {
   "property": "C33",
   "status": "proved",
   "theorems": [
    "C33_commutator",
    "C33_antisymmetric",
    "C33_self",
    "C33_jacobi"
   ],
   "note": "over every commutative ring"
  },
  {
   "property": "C34",
   "status": "partial",
   "theorems": [
    "C34_none_never_returns",
    "C34_none_panics",
    "C34_above_degree_partial",
    "C34_inplace_refuted"
   ],
   "note": "REFUTED for the in-place product, which overwrites words of length 2 although t=1 (C34_inplace_refuted). Proved: None never returns and panics (C34_none_never_returns, C34_none_panics); add_mul, sub_mul and multiply write nothing above t (C34_above_degree_partial)."
  },
  {
   "property": "C61",
   "status": "proved",
   "theorems": [
    "C34_none_never_returns",
    "C34_none_panics"
   ],
   "note": ""
  },
  {
   "property": "C62",
   "status": "proved",
   "theorems": [
    "C30_exact",
    "C30_multiply_exact",
    "C30_overflow_panics"
   ],
   "note": ""
  },
  {
   "property": "C35",
   "status": "partial",
   "theorems": [
    "C35_inplace_refuted",
    "C35_empty_word",
    "C35_scalar_partial",
    "C63_scalar",
    "C63_degree_one",
    "C63_degree_two_and_more"
   ],
   "note": "REFUTED in every build (C35_inplace_refuted): x*5 leaves the coefficient of the empty word unmultiplied; in fact that coefficient never changes (C35_empty_word; C82_empty_word in every build). Exact behaviour: C63. Remaining: multiplication by a nonzero multiple of the unit when that multiple is 1 or x has no constant term (C35_scalar_partial)."
  },
  {
   "property": "C36",
   "status": "partial",
   "theorems": [
    "C36_scaled_refuted",
    "C36_unit_not_scaled",
    "C36_scaled_partial"
   ],
   "note": "REFUTED in every build (C36_scaled_refuted): a right operand equal to the unit switches the scaling off, mul_rat_rdiv multiplies instead of dividing, the empty word is not multiplied. Remaining: multiples of the unit other than 0 and 1, words of length 1..t (C36_scaled_partial)."
  },
  {
   "property": "C63",
   "status": "proved",
   "theorems": [
    "C63_degree_zero",
    "C63_scalar",
    "C63_degree_one",
    "C63_degree_two_and_more"
   ],
   "note": "for r >= 1 the exact results are for builds with overflow checks; builds without them: C82"
  },
  {
   "property": "C37",
   "status": "partial",
   "theorems": [
    "C37_exp_refuted",
    "C37_exp_partial",
    "C64_exp_degree_zero",
    "C64_exp_never",
    "C65_exp"
   ],
   "note": "REFUTED for every build, alphabet and MAX_DEGREE >= 2 (C37_exp_refuted): exp(0) is MAX_DEGREE, not 1. Exact behaviour: C64; over an exact algebra: C65. Remaining: MAX_DEGREE = 0 (C37_exp_partial)."
  },
  {
   "property": "C38",
   "status": "partial",
   "theorems": [
    "C38_log_refuted",
    "C38_log_constant",
    "C64_log",
    "C64_log_degree_zero",
    "C65_log"
   ],
   "note": "REFUTED for every build, alphabet and MAX_DEGREE >= 2 (C38_log_refuted): the products are dropped, log does not depend on its argument (C38_log_constant). Exact behaviour: C64; over an exact algebra: C65."
  },
  {
   "property": "C39",
   "status": "partial",
   "theorems": [
    "C39_fmexp_refuted",
    "C39_fmexp_partial",
    "C64_fmexp_degree_zero",
    "C64_fmexp_never",
    "C65_fmexp"
   ],
   "note": "REFUTED for every build, alphabet and MAX_DEGREE >= 2 (C39_fmexp_refuted): 1.fmexp(0) is MAX_DEGREE, not 1. Exact behaviour: C64; over an exact algebra: C65. Remaining: MAX_DEGREE = 0 (C39_fmexp_partial)."
  },
  {
   "property": "C64",
   "status": "proved",
   "theorems": [
    "C64_exp_degree_zero",
    "C64_exp_short",
    "C64_exp_never",
    "C64_fmexp_degree_zero",
    "C64_fmexp_short",
    "C64_fmexp_never",
    "C64_fmexp_empty",
    "C64_log",
    "C64_log_degree_zero"
   ],
   "note": ""
  },
  {
   "property": "C65",
   "status": "proved",
   "theorems": [
    "C65_exp",
    "C65_fmexp",
    "C65_log"
   ],
   "note": "hypotheses (exact_algebra in S_FreeTensor.v) met by the instance of I_FunAlgebra.v"
  },
  {
   "property": "C40",
   "status": "proved",
   "theorems": [
    "C40_constructors",
    "C40_updates",
    "C40_iteration"
   ],
   "note": ""
  },
  {
   "property": "C41",
   "status": "proved",
   "theorems": [
    "C41_add_inplace",
    "C41_sub_inplace",
    "C41_order_independent",
    "C41_scaling"
   ],
   "note": "law-free; the iteration order of the hash map is an arbitrary function from maps to permutations of their entries"
  },
  {
   "property": "C42",
   "status": "proved",
   "theorems": [
    "C42_invariant",
    "C42_equality",
    "C42_stored_zero"
   ],
   "note": "over every field; C42_stored_zero shows that the condition on stored ZERO is needed"
  },
  {
   "property": "C43",
   "status": "partial",
   "theorems": [
    "C43_refuted",
    "C67_panics",
    "C67_returns"
   ],
   "note": "REFUTED for all operands (C43_refuted): uminus, add, sub, scalar_*multiply, scalar_*divide, the fused operations, swap, insert, erase and to_owned panic. Exact list: C67."
  },
  {
   "property": "C44",
   "status": "partial",
   "theorems": [
    "C44_arithmetic_partial",
    "C44_constructors_partial",
    "C44_from_iterator_refuted",
    "C44_insert_single_refuted"
   ],
   "note": "REFUTED: with a repeated key from_iterator adds up on dense and keeps the last value on sparse vectors (C44_from_iterator_refuted); insert_single does nothing on dense vectors (C44_insert_single_refuted). Remaining: constructors with distinct keys (C44_constructors_partial) and every history of add, sub, uminus, scalar multiplication and division, clear (C44_arithmetic_partial)."
  },
  {
   "property": "C66",
   "status": "proved",
   "theorems": [
    "C66_key_ext",
    "C66_coefficients"
   ],
   "note": ""
  },
  {
   "property": "C67",
   "status": "proved",
   "theorems": [
    "C67_panics",
    "C67_returns"
   ],
   "note": ""
  },
  {
   "property": "C45",
   "status": "partial",
   "theorems": [
    "C45_refuted",
    "C45_partial",
    "C68_mobius",
    "C68_is_squarefree",
    "C68_sound"
   ],
   "note": "REFUTED: mobius(6) never ends, in every build (C45_refuted). Remaining (C45_partial): is_squarefree up to (2^32-1)^2; mobius for 1, primes and numbers with a square factor. Exact behaviour: C68."
  },
  {
   "property": "C46",
   "status": "partial",
   "theorems": [
    "C46_refuted",
    "C46_partial",
    "C46_exact_division",
    "C46_mobius_function_exists",
    "C69_checked",
    "C69_unchecked"
   ],
   "note": "REFUTED for every depth >= 6 (C46_refuted): never returns, because level 6 needs mobius(6). C46_partial: correct for depth <= 5 and w^d < 2^63, all widths."
  },
  {
   "property": "C47",
   "status": "proved",
   "theorems": [
    "C47_history",
    "C47_grow_keeps"
   ],
   "note": "for all histories of calls that return; when they return is C70"
  },
  {
   "property": "C48",
   "status": "partial",
   "theorems": [
    "C48_refuted",
    "C48_partial",
    "C71_find_deg",
    "C71_correct_iff"
   ],
   "note": "REFUTED for every alphabet and every map with at least two degrees (C48_refuted): the last key of each degree is given a later degree. C48_partial: all other keys."
  },
  {
   "property": "C68",
   "status": "proved",
   "theorems": [
    "C68_is_squarefree",
    "C68_mobius",
    "C68_sound"
   ],
   "note": ""
  },
  {
   "property": "C69",
   "status": "proved",
   "theorems": [
    "C69_checked",
    "C69_unchecked",
    "C69_unchecked_wrong"
   ],
   "note": ""
  },
  {
   "property": "C70",
   "status": "proved",
   "theorems": [
    "C70_new",
    "C70_grow"
   ],
   "note": ""
  },
  {
   "property": "C71",
   "status": "proved",
   "theorems": [
    "C71_find_deg",
    "C71_correct_iff"
   ],
   "note": ""
  },
  {
   "property": "C49",
   "status": "partial",
   "theorems": [
    "C49_fields",
    "C49_fields_injective",
    "C49_letter_partial",
    "C49_letter_refuted",
    "C72_from_letter",
    "C72_to_index",
    "C72_outside"
   ],
   "note": "fields: proved (C49_fields, C49_fields_injective). Letters: proved for a < 2^18 (C49_letter_partial), REFUTED for every larger letter (C49_letter_refuted). Exact behaviour: C72."
  },
  {
   "property": "C50",
   "status": "partial",
   "theorems": [
    "C50_refuted",
    "C50_partial",
    "C74_new",
    "C74_answers"
   ],
   "note": "REFUTED for every N >= 1 (C50_refuted): new never ends for N in 2..=10, and for the others no letter is in the set. C50_partial: new returns for the others and is_letter is right."
  },
  {
   "property": "C51",
   "status": "partial",
   "theorems": [
    "C51_refuted",
    "C51_hit_partial",
    "C51_hit_shared_partial",
    "C75_reaches_write",
    "C75_write_blocks",
    "C75_write_panics"
   ],
   "note": "REFUTED (C51_refuted): from the start of the program no call returns under any schedule, for any number of threads; the map stays empty. What is left: a call that finds an entry can return it (C51_hit_partial, C51_hit_shared_partial). Details: C75."
  },
  {
   "property": "C52",
   "status": "partial",
   "theorems": [
    "C52_refuted",
    "C76_history"
   ],
   "note": "REFUTED for every Hall set and every query (C52_refuted). All histories: C76."
  },
  {
   "property": "C72",
   "status": "proved",
   "theorems": [
    "C72_from_letter",
    "C72_to_index",
    "C72_outside"
   ],
   "note": ""
  },
  {
   "property": "C73",
   "status": "proved",
   "theorems": [
    "C73_display"
   ],
   "note": ""
  },
  {
   "property": "C74",
   "status": "proved",
   "theorems": [
    "C74_new",
    "C74_answers",
    "C74_parents"
   ],
   "note": ""
  },
  {
   "property": "C75",
   "status": "proved",
   "theorems": [
    "C75_reaches_write",
    "C75_write_blocks",
    "C75_write_panics",
    "C75_new_never_ends",
    "C75_never_poisoned"
   ],
   "note": "model of std::sync::RwLock: read() needs that nobody writes, write() needs that nobody reads or writes"
  },
  {
   "property": "C76",
   "status": "proved",
   "theorems": [
    "C76_history",
    "C76_before",
    "C76_poisoned"
   ],
   "note": "calls of different clones are atomic: each takes the lock once"
  },
  {
   "property": "C77",
   "status": "proved",
   "theorems": [
    "C77_same",
    "C77_parents",
    "C77_letters"
   ],
   "note": "given that get_hall_set returned, which it never does (C51)"
  },
  {
   "property": "C53",
   "status": "partial",
   "theorems": [
    "C53_laws",
    "C53_closed",
    "C53_f64_from_degree",
    "C53_f32_from_degree_partial",
    "C53_f32_from_degree_refuted",
    "C78_from_degree_nearest",
    "C78_exact_iff"
   ],
   "note": "All of it holds for f64 and for f32 (C53_laws, C53_closed, C53_f64_from_degree) except that from_degree of f32 is not exact: REFUTED (C53_f32_from_degree_refuted, 2^24+1); it is exact up to 2^24 (C53_f32_from_degree_partial) and rounds to nearest beyond (C78). One NaN in the model; IEEE operations from Coq.Floats.SpecFloat."
  },
  {
   "property": "C78",
   "status": "proved",
   "theorems": [
    "C78_from_degree_nearest",
    "C78_exact_iff"
   ],
   "note": "IEEE rounding as defined by Coq.Floats.SpecFloat"
  },
  {
   "property": "C79",
   "status": "proved",
   "theorems": [
    "C79_which_laws",
    "C79_not_associative"
   ],
   "note": "IEEE operations as defined by Coq.Floats.SpecFloat; one NaN"
  },
  {
   "property": "C80",
   "status": "proved",
   "theorems": [
    "C80_add_commutes",
    "C80_sub_self",
    "C80_not_associative"
   ],
   "note": "one NaN in the model"
  },
  {
   "property": "C81",
   "status": "proved",
   "theorems": [
    "C81_integer_product",
    "C81_integer_sum"
   ],
   "note": ""
  },
  {
   "property": "C82",
   "status": "proved",
   "theorems": [
    "C82_cut_below",
    "C82_reaching",
    "C82_empty_word"
   ],
   "note": "l = 0 without overflow checks additionally assumes n^(m+2) < 2^64"
  },
  {
   "property": "C83",
   "status": "proved",
   "theorems": [
    "C83_exp",
    "C83_fmexp"
   ],
   "note": "assumes n^(d+2) < 2^64; for r = 0 see C64"
  },
  {
   "property": "C84",
   "status": "proved",
   "theorems": [
    "C84_operations",
    "C84_rounding_unique",
    "C84_division_by_zero",
    "C84_dense"
   ],
   "note": "IEEE operations as defined by Coq.Floats.SpecFloat; rounding specified independently in S_Float.v"
  },
  {
   "property": "C85",
   "status": "proved",
   "theorems": [
    "C85_multiply",
    "C85_add_sub_mul"
   ],
   "note": "exact arithmetic in Q; no real numbers"
  },
  {
   "property": "C86",
   "status": "proved",
   "theorems": [
    "C86_from_int",
    "C86_from_rational",
    "C86_exact"
   ],
   "note": "the conversions are those of Rust's standard library, modelled as rounding to nearest"
  },
  {
   "property": "C87",
   "status": "proved",
   "theorems": [
    "C87_get",
    "C87_degree"
   ],
   "note": "std's slice indexing is modelled; a RangeInclusive exhausted by iteration and pairs of Bounds are left out"
  },
  {
   "property": "C88",
   "status": "proved",
   "theorems": [
    "C88_access",
    "C88_write"
   ],
   "note": "as C87"
  },
  {
   "property": "C89",
   "status": "proved",
   "theorems": [
    "C89_from_degree"
   ],
   "note": ""
  },
  {
   "property": "C90",
   "status": "proved",
   "theorems": [
    "C90_pairs",
    "C90_calls"
   ],
   "note": "a closure is a function from its state and argument to its next state and its result or a panic"
  },
  {
   "property": "C91",
   "status": "proved",
   "theorems": [
    "C91_pure_closures"
   ],
   "note": "ties the model of M_Algebra.v to that of M_AlgebraFn.v"
  },
  {
   "property": "C92",
   "status": "proved",
   "theorems": [
    "C92_compose",
    "C92_undo",
    "C92_exp"
   ],
   "note": "as for the other properties of exp and fmexp, the product of the implementing type is assumed to be the exact truncated product (no type of the crate implements the trait)"
  },
  {
   "property": "C93",
   "status": "proved",
   "theorems": [
    "C93_scalars",
    "C93_dense",
    "C93_sparse",
    "C93_equivalence"
   ],
   "note": "IEEE comparison as defined by Coq.Floats.SpecFloat; one NaN"
  },
  {
   "property": "C94",
   "status": "proved",
   "theorems": [
    "C94_sparse",
    "C94_removed"
   ],
   "note": "rounding specified independently in S_Float.v"
  },
  {
   "property": "C95",
   "status": "proved",
   "theorems": [
    "C95_refinement",
    "C95_order_independent",
    "C95_panics"
   ],
   "note": "HashMap as a finite map with arbitrary iteration order at each call"
  },
  {
   "property": "C96",
   "status": "proved",
   "theorems": [
    "C96_counting_closure",
    "C96_all_words"
   ],
   "note": ""
  },
  {
   "property": "C97",
   "status": "proved",
   "theorems": [
    "C97_display",
    "C97_map",
    "C97_plain",
    "C97_to_string",
    "C97_own_never_panics",
    "C97_after_grow"
   ],
   "note": "a user's error type is what its Display, Debug, cause and source return"
  },
  {
   "property": "C98",
   "status": "partial",
   "theorems": [
    "C98_text_refuted",
    "C98_text_partial",
    "C98_debug"
   ],
   "note": "REFUTED for Display: read and write errors have the same text (C98_text_refuted); two errors with the same text differ at most in that (C98_text_partial). Proved for Debug (C98_debug)."
  },
  {
   "property": "C99",
   "status": "partial",
   "theorems": [
    "C99_cause_partial",
    "C99_no_cause",
    "C99_source_refuted",
    "C99_conversion"
   ],
   "note": "REFUTED for source, which std recommends instead of the deprecated cause: it is not overridden, so the chain ends at the first wrapper (C99_source_refuted). Proved for cause (C99_cause_partial)."
  },
  {
   "property": "C100",
   "status": "proved",
   "theorems": [
    "C100_multiply",
    "C100_commutator",
    "C100_lie"
   ],
   "note": "shuffles specified in S_Shuffle.v, expressions in S_Lie.v"
  },
  {
   "property": "C101",
   "status": "proved",
   "theorems": [
    "C101_exp",
    "C101_fmexp",
    "C101_not_at_max_degree"
   ],
   "note": "as for the other properties of exp and fmexp, the product of the implementing type is assumed to be the exact truncated product (no type of the crate implements the trait)"
  },
  {
   "property": "C102",
   "status": "proved",
   "theorems": [
    "C102_chen",
    "C102_back",
    "C102_line"
   ],
   "note": "as C101"
  },
  {
   "property": "C103",
   "status": "proved",
   "theorems": [
    "C103_start_of_degree",
    "C103_index_to_degree",
    "C103_right_iff",
    "C103_dimension",
    "C103_wrong_degree"
   ],
   "note": ""
  },
  {
   "property": "C104",
   "status": "proved",
   "theorems": [
    "C104_one_letter",
    "C104_one_letter_degree",
    "C104_no_letters"
   ],
   "note": ""
  },
  {
   "property": "C105",
   "status": "proved",
   "theorems": [
    "C105_from_letter",
    "C105_get_letter",
    "C105_get_letter_beyond",
    "C105_push_front",
    "C105_concatenate",
    "C105_from_letters"
   ],
   "note": ""
  },
  {
   "property": "C106",
   "status": "proved",
   "theorems": [
    "C106_dense",
    "C106_products",
    "C106_returns",
    "C106_lie",
    "C106_mul_rat_rdiv"
   ],
   "note": "the implementing type is given by its two required methods and the coefficients of its values"
  },
  {
   "property": "C107",
   "status": "proved",
   "theorems": [
    "C107_index_to_key",
    "C107_round_trip",
    "C107_collision",
    "C107_no_letters"
   ],
   "note": ""
  },
  {
   "property": "C108",
   "status": "proved",
   "theorems": [
    "C108_short",
    "C108_words",
    "C108_items",
    "C108_fronts",
    "C108_panics",
    "C108_endless",
    "C108_end",
    "C108_two"
   ],
   "note": ""
  },
  {
   "property": "C109",
   "status": "proved",
   "theorems": [
    "C109_next",
    "C109_last",
    "C109_total"
   ],
   "note": ""
  },
  {
   "property": "C110",
   "status": "proved",
   "theorems": [
    "C110_terms",
    "C110_accuracy",
    "C110_integers",
    "C110_not_alternating"
   ],
   "note": "the claim on self-commutators is a counterexample in f32"
  },
  {
   "property": "C111",
   "status": "proved",
   "theorems": [
    "C111_refinement",
    "C111_read",
    "C111_storage",
    "C111_careful",
    "C111_same_meaning"
   ],
   "note": ""
  },
  {
   "property": "C112",
   "status": "proved",
   "theorems": [
    "C112_key_to_index",
    "C112_iterate",
    "C112_letters",
    "C112_dimension_for_key",
    "C112_from_key"
   ],
   "note": ""
  },
  {
   "property": "C113",
   "status": "proved",
   "theorems": [
    "C113_letter_mask",
    "C113_size_mask",
    "C113_letters_outside",
    "C113_field_too_small"
   ],
   "note": ""
  },
  {
   "property": "C114",
   "status": "proved",
   "theorems": [
    "C114_steps",
    "C114_same_in_every_build"
   ],
   "note": ""
  },
  {
   "property": "C115",
   "status": "proved",
   "theorems": [
    "C115_error",
    "C115_finite"
   ],
   "note": ""
  },
  {
   "property": "C116",
   "status": "proved",
   "theorems": [
    "C116_integers"
   ],
   "note": ""
  },
  {
   "property": "C117",
   "status": "proved",
   "theorems": [
    "C117_agree",
    "C117_zero",
    "C117_storage",
    "C117_constructors"
   ],
   "note": ""
  },
  {
   "property": "C118",
   "status": "proved",
   "theorems": [
    "C118_kinds",
    "C118_shared",
    "C118_clear_visible",
    "C118_inplace",
    "C118_unchanged",
    "C118_borrowed_protected",
    "C118_borrowed_mut",
    "C118_refinement"
   ],
   "note": ""
  },
  {
   "property": "C119",
   "status": "proved",
   "theorems": [
    "C119_linearizable",
    "C119_own_calls",
    "C119_exclusive",
    "C119_no_deadlock",
    "C119_all_return",
    "C119_answers"
   ],
   "note": ""
  },
  {
   "property": "C120",
   "status": "proved",
   "theorems": [
    "C120_multiply",
    "C120_commutator",
    "C120_programs",
    "C120_words"
   ],
   "note": ""
  },
  {
   "property": "C121",
   "status": "proved",
   "theorems": [
    "C121_programs",
    "C121_reads",
    "C121_inplace",
    "C121_free_tensor",
    "C121_homomorphism",
    "C121_closed"
   ],
   "note": ""
  },
  {
   "property": "C122",
   "status": "proved",
   "theorems": [
    "C122_relabel",
    "C122_weights",
    "C122_backwards"
   ],
   "note": ""
  },
  {
   "property": "C123",
   "status": "proved",
   "theorems": [
    "C123_histories",
    "C123_new_and_reads"
   ],
   "note": ""
  },
  {
   "property": "C124",
   "status": "proved",
   "theorems": [
    "C124_local",
    "C124_truncation",
    "C124_factors"
   ],
   "note": ""
  },
  {
   "property": "C125",
   "status": "proved",
   "theorems": [
    "C125_keys",
    "C125_basis",
    "C125_vectors",
    "C125_products",
    "C125_closures",
    "C125_programs",
    "C125_hall"
   ],
   "note": ""
  },
  {
   "property": "C126",
   "status": "proved",
   "theorems": [
    "C126_inverse",
    "C126_group",
    "C126_lie",
    "C126_path"
   ],
   "note": ""
  },
  {
   "property": "C127",
   "status": "proved",
   "theorems": [
    "C127_inverse",
    "C127_cancel",
    "C127_leading",
    "C127_nonzero",
    "C127_centre"
   ],
   "note": ""
  },
  {
   "property": "C128",
   "status": "proved",
   "theorems": [
    "C128_dynkin",
    "C128_specht_wever",
    "C128_lie_polynomials",
    "C128_right_brackets"
   ],
   "note": ""
  },
  {
   "property": "C129",
   "status": "proved",
   "theorems": [
    "C129_bracket",
    "C129_basis",
    "C129_determined",
    "C129_prescribed",
    "C129_hall_set_size"
   ],
   "note": ""
  },
  {
   "property": "C130",
   "status": "proved",
   "theorems": [
    "C130_cyclic",
    "C130_conjugate",
    "C130_lie",
    "C130_commutators",
    "C130_letters"
   ],
   "note": ""
  },
  {
   "property": "C131",
   "status": "proved",
   "theorems": [
    "C131_bounded",
    "C131_bound_met",
    "C131_answer",
    "C131_endless",
    "C131_endless_key"
   ],
   "note": ""
  }
 ]
}