c("C01","proved","every N in 1..2^32-1, every profile")
c("C02","proved","")
c("C03","partial","REFUTED as stated: for N>=2^31 the empty key is not a left unit in builds with overflow checks (C03_concatenate_refuted). Proved: associativity, units and degree for every N<2^31 (C03_monoid_partial), exact description for all N in C54.", ["C54_concatenate_exact"])
c("C04","proved","")
c("C05","proved","")
c("C06","partial","REFUTED: to_letters returns the letters in reverse order (C06_to_letters_refuted); exact behaviour is C55.", ["C55_to_letters_reversed"])
c("C07","partial","REFUTED: from_letter, index_to_key and concatenate accept arguments that give keys outside the alphabet or longer than max_depth, in every profile (C07_any_key_valid_refuted). Proved for calls with arguments in range (C07_guarded_partial).")
c("C08","partial","{:?}: proved (C08_debug_text, C08_debug_injective). {} REFUTED: Display::fmt calls itself and never returns (C08_display_refuted).")
c("C09","proved","")
c("C10","proved","C10_enumeration checks the specification list itself")
c("C11","proved","")
c("C12","proved","C12_otherwise_panics: the range condition is necessary in builds with overflow checks")
c("C13","proved","for keys whose dimension fits in 64 bits; otherwise checked builds panic (C13_overflow_panics)")
c("C14","partial","REFUTED between keys of different length (C14_compare_refuted); proved for keys of one degree (C14_same_degree_partial); exact behaviour is C56.", ["C56_compare_exact","C56_preorder"])
c("C15","partial","REFUTED for every N>=2 (C15_iter_refuted gives the position of the first wrong item); the correct prefix and the N=1 case are C57.", ["C57_prefix","C57_one_letter"])
c("C54","proved","")
c("C55","proved","")
c("C56","proved","", ["C14_same_degree_partial"])
c("C57","proved","", ["C15_iter_refuted"])
c("C16","proved","for keys whose dimension fits in 64 bits; C16_overflow_panics: otherwise checked builds panic (unchecked builds: see C58)")
c("C17","proved","")
c("C18","proved","law-free: for every scalar type, whatever its operations compute")
c("C19","proved","")
c("C20","proved","")
c("C21","proved","")
c("C22","partial","REFUTED: insert_single changes nothing and insert panics, for every vector, key and value (C22_insert_single_refuted, C22_insert_exact).")
c("C23","partial","REFUTED when the key lies outside the stored size, where nothing is added, and for sub_scalar_divide, which adds 1/r instead of subtracting it (C23_key_ext_refuted); exact behaviour C23_key_ext_exact; the claim for stored keys, with the wrong sign of sub_scalar_divide, C23_key_ext_partial.")
c("C24","partial","REFUTED: vectors with equal coefficients but different stored sizes are unequal (C24_equality_refuted); exact behaviour C24_equality_exact; the claim for equal sizes C24_same_size_partial.")
c("C25","partial","REFUTED for a clear followed by a write through get_mut, since clear keeps the size of a BorrowedMut buffer only (C25_clear_refuted). Proved: every single operation gives the same coefficients for all storage kinds, every history without clear gives the same vector, a Borrowed buffer never changes, a BorrowedMut buffer shows exactly the operations before the first one that needs another size, and keeps its length.")
c("C26","proved","C26_refinement needs no laws of scalars; C26_coefficients is the field version on coefficient functions")
c("C27","proved","as equality of the stored slices, which is stronger than equality of coefficients")
c("C28","partial","REFUTED for get, get_mut and all of VectorKeyExt, which never return (C28_get_refuted, C28_get_never_returns). Every other operation delegates (C28_delegation_partial).")
c("C58","partial","REFUTED: in every build and for every alphabet of 2..2^32-2 letters, from_key of from_letter(N+1) writes out of bounds (C58_memory_safety_refuted); without overflow checks also the valid word 11 over 2^32-1 letters (C58_wrapped_dimension_refuted). Exactly when it happens, for any ordered basis: C58_from_key_exact, C58_from_iterator_exact. Words over the alphabet are safe with overflow checks (C58_words_checked_partial).")
c("C59","proved","")
c("C60","partial","REFUTED for every non-empty vector: never returns (C60_display_refuted); the empty vector prints nothing (C60_display_empty_partial).")
c("C29","proved","law-free (terms in the order of the additions): C29_add_mul, C29_sub_mul, C29_multiply; over a ring the sum of the terms is the convolution (C29_convolution); C29_read: what get reads")
c("C30","partial","REFUTED: multiplying two units, two empty vectors or two vectors whose top degree is not completely stored is undefined behaviour in every build (C30_memory_safety_refuted); without overflow checks also for wrapped sizes (C30_wrapped_size_refuted). Exactly when: C62.", ["C30_exact","C30_multiply_exact"])
c("C31","proved","for degree(k1)+degree(k2) >= 1 and products whose size fits in 64 bits; over every commutative ring")
c("C32","proved","equality of the resulting vectors, over every commutative ring; at least one factor of each product must have degree >= 1 (otherwise the product is undefined behaviour, C30); multiplying by the unit truncates")
c("C33","proved","over every commutative ring")
c("C34","partial","REFUTED for the in-place product, which overwrites words of length 2 although t=1 (C34_inplace_refuted). Proved: None never returns and panics (C34_none_never_returns, C34_none_panics); add_mul, sub_mul and multiply write nothing above t (C34_above_degree_partial).")
c("C61","proved","", ["C34_none_never_returns","C34_none_panics"])
c("C62","proved","", ["C30_exact","C30_multiply_exact","C30_overflow_panics"])
c("C35","partial","REFUTED in every build (C35_inplace_refuted): x*5 leaves the coefficient of the empty word unmultiplied; in fact that coefficient never changes (C35_empty_word; C82_empty_word in every build). Exact behaviour: C63. Remaining: multiplication by a nonzero multiple of the unit when that multiple is 1 or x has no constant term (C35_scalar_partial).", ["C63_scalar","C63_degree_one","C63_degree_two_and_more"])
c("C36","partial","REFUTED in every build (C36_scaled_refuted): a right operand equal to the unit switches the scaling off, mul_rat_rdiv multiplies instead of dividing, the empty word is not multiplied. Remaining: multiples of the unit other than 0 and 1, words of length 1..t (C36_scaled_partial).")
c("C63","proved","for r >= 1 the exact results are for builds with overflow checks; builds without them: C82")
c("C37","partial","REFUTED for every build, alphabet and MAX_DEGREE >= 2 (C37_exp_refuted): exp(0) is MAX_DEGREE, not 1. Exact behaviour: C64; over an exact algebra: C65. Remaining: MAX_DEGREE = 0 (C37_exp_partial).", ["C64_exp_degree_zero","C64_exp_never","C65_exp"])
c("C38","partial","REFUTED for every build, alphabet and MAX_DEGREE >= 2 (C38_log_refuted): the products are dropped, log does not depend on its argument (C38_log_constant). Exact behaviour: C64; over an exact algebra: C65.", ["C64_log","C64_log_degree_zero","C65_log"])
c("C39","partial","REFUTED for every build, alphabet and MAX_DEGREE >= 2 (C39_fmexp_refuted): 1.fmexp(0) is MAX_DEGREE, not 1. Exact behaviour: C64; over an exact algebra: C65. Remaining: MAX_DEGREE = 0 (C39_fmexp_partial).", ["C64_fmexp_degree_zero","C64_fmexp_never","C65_fmexp"])
c("C64","proved","")
c("C65","proved","hypotheses (exact_algebra in S_FreeTensor.v) met by the instance of I_FunAlgebra.v")
c("C40","proved","")
c("C41","proved","law-free; the iteration order of the hash map is an arbitrary function from maps to permutations of their entries")
c("C42","proved","over every field; C42_stored_zero shows that the condition on stored ZERO is needed")
c("C43","partial","REFUTED for all operands (C43_refuted): uminus, add, sub, scalar_*multiply, scalar_*divide, the fused operations, swap, insert, erase and to_owned panic. Exact list: C67.", ["C67_panics","C67_returns"])
c("C44","partial","REFUTED: with a repeated key from_iterator adds up on dense and keeps the last value on sparse vectors (C44_from_iterator_refuted); insert_single does nothing on dense vectors (C44_insert_single_refuted). Remaining: constructors with distinct keys (C44_constructors_partial) and every history of add, sub, uminus, scalar multiplication and division, clear (C44_arithmetic_partial).")
c("C66","proved","")
c("C67","proved","")
c("C45","partial","REFUTED: mobius(6) never ends, in every build (C45_refuted). Remaining (C45_partial): is_squarefree up to (2^32-1)^2; mobius for 1, primes and numbers with a square factor. Exact behaviour: C68.", ["C68_mobius","C68_is_squarefree","C68_sound"])
c("C46","partial","REFUTED for every depth >= 6 (C46_refuted): never returns, because level 6 needs mobius(6). C46_partial: correct for depth <= 5 and w^d < 2^63, all widths.", ["C69_checked","C69_unchecked"])
c("C47","proved","for all histories of calls that return; when they return is C70")
c("C48","partial","REFUTED for every alphabet and every map with at least two degrees (C48_refuted): the last key of each degree is given a later degree. C48_partial: all other keys.", ["C71_find_deg","C71_correct_iff"])
c("C68","proved","")
c("C69","proved","")
c("C70","proved","")
c("C71","proved","")
c("C49","partial","fields: proved (C49_fields, C49_fields_injective). Letters: proved for a < 2^18 (C49_letter_partial), REFUTED for every larger letter (C49_letter_refuted). Exact behaviour: C72.", ["C72_from_letter","C72_to_index","C72_outside"])
c("C50","partial","REFUTED for every N >= 1 (C50_refuted): new never ends for N in 2..=10, and for the others no letter is in the set. C50_partial: new returns for the others and is_letter is right.", ["C74_new","C74_answers"])
c("C51","partial","REFUTED (C51_refuted): from the start of the program no call returns under any schedule, for any number of threads; the map stays empty. What is left: a call that finds an entry can return it (C51_hit_partial, C51_hit_shared_partial). Details: C75.", ["C75_reaches_write","C75_write_blocks","C75_write_panics"])
c("C52","partial","REFUTED for every Hall set and every query (C52_refuted). All histories: C76.", ["C76_history"])
c("C72","proved","")
c("C73","proved","")
c("C74","proved","")
c("C75","proved","model of std::sync::RwLock: read() needs that nobody writes, write() needs that nobody reads or writes")
c("C76","proved","calls of different clones are atomic: each takes the lock once")
c("C77","proved","given that get_hall_set returned, which it never does (C51)")
c("C53","partial","All of it holds for f64 and for f32 (C53_laws, C53_closed, C53_f64_from_degree) except that from_degree of f32 is not exact: REFUTED (C53_f32_from_degree_refuted, 2^24+1); it is exact up to 2^24 (C53_f32_from_degree_partial) and rounds to nearest beyond (C78). One NaN in the model; IEEE operations from Coq.Floats.SpecFloat.", ["C78_from_degree_nearest","C78_exact_iff"])
c("C78","proved","IEEE rounding as defined by Coq.Floats.SpecFloat")
c("C79","proved","IEEE operations as defined by Coq.Floats.SpecFloat; one NaN")
c("C80","proved","one NaN in the model")
c("C81","proved","")
c("C82","proved","l = 0 without overflow checks additionally assumes n^(m+2) < 2^64")
c("C83","proved","assumes n^(d+2) < 2^64; for r = 0 see C64")
c("C84","proved","IEEE operations as defined by Coq.Floats.SpecFloat; rounding specified independently in S_Float.v")
c("C85","proved","exact arithmetic in Q; no real numbers")
c("C86","proved","the conversions are those of Rust's standard library, modelled as rounding to nearest")
c("C87","proved","std's slice indexing is modelled; a RangeInclusive exhausted by iteration and pairs of Bounds are left out")
c("C88","proved","as C87")
c("C89","proved","")
c("C90","proved","a closure is a function from its state and argument to its next state and its result or a panic")
c("C91","proved","ties the model of M_Algebra.v to that of M_AlgebraFn.v")
c("C92","proved","as for the other properties of exp and fmexp, the product of the implementing type is assumed to be the exact truncated product (no type of the crate implements the trait)")
c("C93","proved","IEEE comparison as defined by Coq.Floats.SpecFloat; one NaN")
c("C94","proved","rounding specified independently in S_Float.v")
c("C95","proved","HashMap as a finite map with arbitrary iteration order at each call")
c("C96","proved","")
c("C97","proved","a user's error type is what its Display, Debug, cause and source return")
c("C98","partial","REFUTED for Display: read and write errors have the same text (C98_text_refuted); two errors with the same text differ at most in that (C98_text_partial). Proved for Debug (C98_debug).")
c("C99","partial","REFUTED for source, which std recommends instead of the deprecated cause: it is not overridden, so the chain ends at the first wrapper (C99_source_refuted). Proved for cause (C99_cause_partial).")
c("C100","proved","shuffles specified in S_Shuffle.v, expressions in S_Lie.v")
c("C101","proved","as for the other properties of exp and fmexp, the product of the implementing type is assumed to be the exact truncated product (no type of the crate implements the trait)")
c("C102","proved","as C101")
c("C103","proved","")
c("C104","proved","")
c("C105","proved","")
c("C106","proved","the implementing type is given by its two required methods and the coefficients of its values")
c("C107","proved","")
c("C108","proved","")
c("C109","proved","")
c("C110","proved","the claim on self-commutators is a counterexample in f32")
c("C111","proved","")
c("C112","proved","")
c("C113","proved","")
c("C114","proved","")
c("C115","proved","")
c("C116","proved","")
c("C117","proved","")
c("C118","proved","")
c("C119","proved","")
c("C120","proved","")
c("C121","proved","")
c("C122","proved","")
c("C123","proved","")
c("C124","proved","")
c("C125","proved","")
c("C126","proved","")
c("C127","proved","")
c("C128","proved","")
c("C129","proved","")
c("C130","proved","")
c("C131","proved","")
