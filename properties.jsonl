{"id": "C01", "title": "A tensor key remembers exactly the word it was built from", "statement": "For every alphabet size N>=1 and every word over 1..N of at most max_depth letters, TensorKey::from_letters succeeds in every build profile, size() is the length of the word, get_letter(i) is the i-th letter counted from the end, and TensorKeyIterator yields the letters in the order they were given and then None for ever.", "quantifier": "every N in 1..2^32-1, every word of length <= max_depth, every position, every build profile (overflow checks / debug assertions on or off)", "why_tests_cant": "the 64-bit packing depends on N through a logarithm and on each position through shifts; tests only use N=3 and words up to 5 letters", "anchors": ["src/free_tensor/tensor_basis/tensor_key.rs: from_letters, get_letter, get_letter_unadjusted, size, TensorKeyIterator::next", "src/implementation.rs: const_logn, make_mask"]}
{"id": "C02", "title": "Tensor keys are equal exactly when their words are equal", "statement": "For any two words over 1..N of at most max_depth letters, the keys built from them compare equal with == if and only if the words are identical (in particular words of different length never collide although letter 1 is stored as 0).", "quantifier": "every N in 1..2^32-1 and every pair of words within max_depth", "why_tests_cant": "injectivity ranges over all pairs of words", "anchors": ["src/free_tensor/tensor_basis/tensor_key.rs: PartialEq derive, from_letters"]}
{"id": "C03", "title": "concatenate is concatenation of words", "statement": "If the total length is at most max_depth, the key k1.concatenate(&k2) is the key of the word w1 followed by w2, without panic or wrap-around in any profile; hence concatenate is associative, the empty key is its two-sided unit and the degree of the result is the sum of degrees.", "quantifier": "every N, every pair/triple of words with total length <= max_depth, every profile", "why_tests_cant": "needs all letter values, lengths and shifts up to 64 bits", "anchors": ["src/free_tensor/tensor_basis/tensor_key.rs: concatenate", "src/free_tensor/tensor_basis/mod.rs: BasisWithDegree::degree"]}
{"id": "C04", "title": "push_front prepends one letter", "statement": "For every key of a word w shorter than max_depth and every letter a in 1..N, push_front(a) turns it into the key of the word a followed by w, in every profile; building a word by successive push_front calls from the right gives the same key as from_letters.", "quantifier": "every N, word, letter, profile", "why_tests_cant": "all words and positions", "anchors": ["src/free_tensor/tensor_basis/tensor_key.rs: push_front, push_front_raw"]}
{"id": "C05", "title": "max_depth is a sound and enforced bound", "statement": "For every N in 1..2^32-1, max_depth letters fit in 64 bits and max_depth is at least 2; from_letters on a longer slice panics in every profile whatever the letters are; with debug assertions a letter outside 1..N panics.", "quantifier": "every N, every slice of letters, every profile", "why_tests_cant": "the bound depends on N through two nested logarithms", "anchors": ["src/free_tensor/tensor_basis/tensor_key.rs: max_depth, size_bits, bits_per_letter, from_letters"]}
{"id": "C06", "title": "to_letters gives back the letters passed to from_letters", "statement": "to_letters(from_letters(w)) returns w, so that from_letters(to_letters(k)) = k.", "quantifier": "every N and every word within max_depth", "why_tests_cant": "order of letters matters for every non-palindrome", "anchors": ["src/free_tensor/tensor_basis/tensor_key.rs: to_letters"]}
{"id": "C07", "title": "Every key obtainable through the safe public API denotes a word over the alphabet within max_depth", "statement": "Starting from new/from_letter/from_letters/index_to_key and applying push_front/concatenate in any order, each key that is returned has all letters in 1..N and at most max_depth letters.", "quantifier": "every finite sequence of public constructor calls, all arguments", "why_tests_cant": "closure under arbitrary call sequences", "anchors": ["src/free_tensor/tensor_basis/tensor_key.rs: from_letter, from_letters, push_front, concatenate", "src/free_tensor/tensor_basis/mod.rs: index_to_key"]}
{"id": "C08", "title": "Keys can be printed", "statement": "Formatting any key with {:?} and with {} terminates; the {:?} text determines the letters of the key (two keys with different letter sequences print differently).", "quantifier": "every N, every key", "why_tests_cant": "termination and injectivity over all keys", "anchors": ["src/free_tensor/tensor_basis/tensor_key.rs: Debug::fmt, Display::fmt"]}
{"id": "C09", "title": "key_to_index and index_to_key are mutually inverse", "statement": "For every word within max_depth index_to_key(key_to_index(k)) = k; for every index smaller than the number of words of length <= max_depth, index_to_key succeeds in every profile, gives a key of a word within max_depth and key_to_index of it is the index again. No arithmetic in either direction overflows 64 bits.", "quantifier": "every N>=1, every word within max_depth, every index below the dimension, every profile", "why_tests_cant": "tests cover N=3 up to degree 3; overflow can only appear at the extreme depths", "anchors": ["src/free_tensor/tensor_basis/mod.rs: key_to_index, index_to_key"]}
{"id": "C10", "title": "The index of a key is its position in the length-then-lexicographic enumeration", "statement": "List all words by length and, within one length, lexicographically. key_to_index(k) is the position of the word of k in that list and index_to_key(i) is the key of its i-th word.", "quantifier": "every N>=1, every word within max_depth, every position", "why_tests_cant": "the enumeration is infinite in N and exponentially long in depth", "anchors": ["src/free_tensor/tensor_basis/mod.rs: key_to_index, index_to_key"]}
{"id": "C11", "title": "start_of_degree counts the words of smaller degree", "statement": "For N>=2 and N^deg < 2^64, start_of_degree(deg) is the number of words of length < deg; if N^(deg+1) < 2^64 and N < 2^32, degree_range(deg) runs from the number of words of length < deg to the number of words of length <= deg and contains the index of a key exactly when its word has length deg; if N^deg does not fit in 64 bits, or N<=1, a build with overflow checks panics.", "quantifier": "every N, every degree, every profile", "why_tests_cant": "overflow boundary differs for every N", "anchors": ["src/free_tensor/tensor_basis/mod.rs: start_of_degree, degree_range"]}
{"id": "C12", "title": "index_to_degree is the length of the word at that index", "statement": "For N>=2, every d with N^(max(d,2)+1) < 2^64 and every index of a word of length d, index_to_degree returns d in every profile; it agrees with degree(index_to_key(index)).", "quantifier": "every N>=2, every index, every profile", "why_tests_cant": "recursive search with data dependent depth", "anchors": ["src/free_tensor/tensor_basis/mod.rs: index_to_degree, index_to_degree_impl"]}
{"id": "C13", "title": "The dimension reserved for a key always contains the key", "statement": "vector_dimension_for_key(k) is the number of words of length <= degree(k); it is strictly greater than key_to_index(k) and is the least such level boundary; vector_dimension_for_index(i) equals vector_dimension_for_key(index_to_key(i)).", "quantifier": "every N>=2, every word within max_depth whose dimension is computable in 64 bits, every profile", "why_tests_cant": "this is what makes the unchecked write in from_key sound, for all keys", "anchors": ["src/free_tensor/tensor_basis/mod.rs: vector_dimension_for_key, vector_dimension_for_index", "src/vector/implementation/simple_dense_vector.rs: from_key_scalar"]}
{"id": "C14", "title": "compare orders keys the way indices do", "statement": "compare(k1,k2) is a total order, Equal exactly when k1 == k2, and agrees with the order of key_to_index.", "quantifier": "every N and every pair/triple of keys", "why_tests_cant": "all pairs of keys of all degrees", "anchors": ["src/free_tensor/tensor_basis/mod.rs: compare"]}
{"id": "C15", "title": "iter_keys enumerates the basis in index order", "statement": "The i-th item produced by iter_keys() is index_to_key(i), for every i up to the number of words of length <= max_depth, after which it produces None; starting_from(k) continues from k.", "quantifier": "every N, every number of next() calls", "why_tests_cant": "carries over several letters appear only after N^2 or N^3 calls", "anchors": ["src/free_tensor/tensor_basis/key_iterator.rs: TensorBasisIterator::next, new, starting_from", "src/free_tensor/tensor_basis/tensor_key.rs: set_letter"]}
{"id": "C16", "title": "from_key and from_key_scalar build the expected single-term dense vector", "statement": "from_key_scalar(k,s) returns (never panics, never writes out of bounds) a vector whose coefficient at k is s and at every other stored basis element is ZERO; its size is vector_dimension_for_key(k). from_key(k) is the case s = ONE.", "quantifier": "every N>=2, every word within max_depth whose dimension is computable, every scalar, every profile", "why_tests_cant": "unchecked write: safety for every key", "anchors": ["src/vector/implementation/simple_dense_vector.rs: from_key, from_key_scalar"]}
{"id": "C17", "title": "Dense from_iterator sums repeated keys in the order given", "statement": "from_iterator over any list of (key, scalar) pairs of valid keys returns a vector where the coefficient at each key is ZERO plus the scalars given for that key, added in the order they were given; the result is long enough for the largest key, and is the empty vector for an empty list. No out-of-bounds access.", "quantifier": "every list of pairs in any order with any repetitions", "why_tests_cant": "all permutations and repetitions; stability of the sort matters for floating point", "anchors": ["src/vector/implementation/simple_dense_vector.rs: from_iterator"]}
{"id": "C18", "title": "Dense addition and subtraction are coefficientwise whatever the sizes", "statement": "After add_inplace/sub_inplace (and for add/sub), the coefficient at each index is add/sub of the two coefficients where both are stored, the left one where only it is stored, and ZERO add/sub the right one where only it is stored; the size is the larger size; the right operand is not changed.", "quantifier": "every pair of vectors of every size and storage kind, every scalar type", "why_tests_cant": "all size mismatches", "anchors": ["src/vector/implementation/simple_dense_vector.rs: add_inplace, sub_inplace, resize", "src/vector/traits/vector.rs: add, sub"]}
{"id": "C19", "title": "Dense negation, scalar multiplication and scalar division are coefficientwise", "statement": "uminus(_inplace), scalar_l/rmultiply(_inplace) and scalar_l/rdivide(_inplace) apply uminus, mul(.,s), div(.,r) to every stored coefficient and keep the size; left and right variants give identical vectors; the non-inplace forms do not change their operand.", "quantifier": "every vector, every scalar, every storage kind", "why_tests_cant": "all vectors", "anchors": ["src/vector/implementation/simple_dense_vector.rs: uminus_inplace, scalar_lmultiply_inplace, scalar_rdivide_inplace", "src/vector/traits/vector.rs"]}
{"id": "C20", "title": "Fused multiply-add/divide-add equal their two-step forms", "statement": "add_/sub_scalar_l/rmultiply and add_/sub_scalar_l/rdivide have coefficients self +/- (other*s) resp. self +/- (other/r) with exactly the same scalar operations as computing the scaled vector first.", "quantifier": "every pair of vectors, every scalar", "why_tests_cant": "all vectors and sizes", "anchors": ["src/vector/traits/vector.rs: add_scalar_rmultiply .. sub_scalar_ldivide"]}
{"id": "C21", "title": "erase, clear, swap and to_owned behave like on a map", "statement": "erase(k) sets the coefficient at k to ZERO if stored and changes nothing else (nothing at all if not stored); clear leaves no non-ZERO coefficient; swap exchanges the two vectors; to_owned/clone give an independent vector with the same coefficients. get answers accordingly for every key afterwards, and a write through get_mut changes what get answers for that key only.", "quantifier": "every vector, key, storage kind", "why_tests_cant": "frame condition over all other keys", "anchors": ["src/vector/implementation/simple_dense_vector.rs: erase, clear, swap, to_owned, clone"]}
{"id": "C22", "title": "Inserting a coefficient makes it readable", "statement": "After insert_single(&k, v), get(k) returns v and other coefficients are unchanged (dense vectors).", "quantifier": "every vector, key and value", "why_tests_cant": "all keys, stored or not", "anchors": ["src/vector/implementation/simple_dense_vector.rs: insert_single, insert"]}
{"id": "C23", "title": "VectorKeyExt adds or subtracts a multiple of a basis element", "statement": "add_scalar_multiply(k,v), sub_scalar_multiply(k,v), add_scalar_divide(k,r), sub_scalar_divide(k,r) change the coefficient at k by +v, -v, +ONE/r, -ONE/r and nothing else, whether or not k was already stored.", "quantifier": "every vector, key and scalar", "why_tests_cant": "two code paths per operation, all keys", "anchors": ["src/vector/traits/extension.rs: VectorKeyExt"]}
{"id": "C24", "title": "Equality of dense vectors is equality of coefficients", "statement": "Two dense vectors compare equal exactly when all coefficients agree, a coefficient that is not stored counting as ZERO.", "quantifier": "every pair of vectors of all sizes", "why_tests_cant": "all pairs of sizes", "anchors": ["src/vector/implementation/simple_dense_vector.rs: PartialEq::eq"]}
{"id": "C25", "title": "Storage kind is invisible and borrowed data is protected", "statement": "Every mutating operation gives the same coefficients on Owned, Borrowed and BorrowedMut storage of equal contents; a buffer behind Borrowed is never changed; a buffer behind BorrowedMut sees every update until the vector has to grow, and keeps its length.", "quantifier": "every sequence of mutating operations on every vector", "why_tests_cant": "histories of operations", "anchors": ["src/vector/implementation/simple_dense_vector.rs: SimpleDenseVectorData, as_mut_slice, to_owned_with_size, resize, clear"]}
{"id": "C26", "title": "Dense vectors refine coefficient maps along every history", "statement": "Any sequence of mutating dense-vector operations other than insert (which always panics), on valid keys, never panics or touches memory out of bounds, and the resulting coefficients are those obtained by running the same operations on a mathematical coefficient function.", "quantifier": "every initial vector, every finite operation sequence", "why_tests_cant": "all histories", "anchors": ["src/vector/implementation/simple_dense_vector.rs", "src/vector/traits/vector.rs", "src/vector/traits/extension.rs"]}
{"id": "C27", "title": "Vector-space laws", "statement": "Over a scalar type satisfying the field laws, dense addition is associative and commutative, new() is neutral, x.sub(x) has only ZERO coefficients, scalar multiplication distributes, etc., coefficientwise.", "quantifier": "every triple of vectors of every size, every field", "why_tests_cant": "universally quantified equations", "anchors": ["src/vector/implementation/simple_dense_vector.rs", "src/vector/traits/vector.rs"]}
{"id": "C28", "title": "DenseTensor behaves like the vector it wraps", "statement": "Each Vector operation on a DenseTensor (constructors, get, get_mut, arithmetic) gives the result of the same operation on the wrapped SimpleDenseVector.", "quantifier": "every operation and operand", "why_tests_cant": "all operations of the blanket impl", "anchors": ["src/vector/implementation/deref_impl.rs", "src/free_tensor/implementation/dense.rs: DenseTensor"]}
{"id": "C29", "title": "multiply/add_mul/sub_mul compute the truncated tensor product", "statement": "For vectors filled up to a degree, after add_mul(lhs,rhs,Some(t)) the coefficient at each word w of length <= min(t, deg lhs + deg rhs) is self_w plus the sum over all ways to split w = uv of lhs_u * rhs_v (in a fixed documented order of additions, so exactly in floating point); coefficients of longer words are unchanged. sub_mul subtracts, multiply starts from zero.", "quantifier": "every N>=2, all degrees, all coefficients, all truncation degrees, every profile", "why_tests_cant": "quantifies over all words and tensors; only one product of two letters is tested", "anchors": ["src/free_tensor/implementation/dense.rs: multiply_and_add_into_impl, dense_tensor_multiply_into_buffer", "src/algebra/mod.rs: multiply, add_mul, sub_mul"]}
{"id": "C30", "title": "multiply never touches memory out of bounds", "statement": "multiply, add_mul and sub_mul called from safe code on any operands either return or panic; they never perform an out-of-bounds unchecked access.", "quantifier": "every pair of operands constructible by the safe API", "why_tests_cant": "unsafe code: all sizes", "anchors": ["src/free_tensor/implementation/dense.rs: multiply_and_add_into_impl"]}
{"id": "C31", "title": "The product of two basis elements is the basis element of the concatenated word", "statement": "from_key(k1).multiply(from_key(k2), Some(t)) equals from_key(k1.concatenate(k2)) when 1 <= degree(k1)+degree(k2) <= t, and has no non-ZERO coefficient when 1 <= t < degree(k1)+degree(k2).", "quantifier": "every N>=2, all keys, all t", "why_tests_cant": "layout agreement between outer-product loop, packing and index for all words", "anchors": ["src/free_tensor/implementation/dense.rs", "src/free_tensor/tensor_basis/tensor_key.rs: concatenate"]}
{"id": "C32", "title": "Tensor multiplication is an associative bilinear unital product", "statement": "Over a field, multiply truncated at t is associative, distributes over add and scalar multiplication, and the tensor of the empty word is a unit.", "quantifier": "every triple of filled tensors, every t>=1, every field", "why_tests_cant": "universally quantified equations", "anchors": ["src/algebra/mod.rs: multiply", "src/free_tensor/implementation/dense.rs"]}
{"id": "C33", "title": "The commutator is a Lie bracket", "statement": "commutator(x,y) has coefficients of xy - yx truncated at t; it is antisymmetric, vanishes on equal arguments, and satisfies the Jacobi identity.", "quantifier": "every triple of filled tensors, every t>=1, every field", "why_tests_cant": "universally quantified equations", "anchors": ["src/algebra/mod.rs: commutator"]}
{"id": "C34", "title": "Omitting to_degree is reported", "statement": "All products with to_degree = None panic instead of returning a wrong result; with Some(t) nothing above degree t is ever written.", "quantifier": "all operands", "why_tests_cant": "all operands", "anchors": ["src/free_tensor/implementation/dense.rs: multiply_and_add_into_impl, multiply_into_impl"]}
{"id": "C35", "title": "multiply_inplace equals multiply", "statement": "x.multiply_inplace(y, Some(t)) leaves in x the coefficients of x.multiply(y, Some(t)).", "quantifier": "every pair of filled tensors, every t, every profile", "why_tests_cant": "many branches on degrees and on rhs[0]", "anchors": ["src/algebra/mod.rs: multiply_inplace", "src/free_tensor/implementation/dense.rs: multiply_into_impl, dense_tensor_multiply_inplace"]}
{"id": "C36", "title": "Scaled in-place products scale as documented by their names", "statement": "mul_scal_lprod/rprod multiply each product term by the scalar; mul_rat_ldiv/rdiv divide each product term by the rational.", "quantifier": "all operands and scalars", "why_tests_cant": "all operands", "anchors": ["src/algebra/mod.rs: mul_scal_lprod, mul_scal_rprod, mul_rat_ldiv, mul_rat_rdiv"]}
{"id": "C37", "title": "exp is the truncated exponential", "statement": "FreeTensor::exp(x) is the truncated exponential series 1 + x + x^2/2! + ... up to MAX_DEGREE.", "quantifier": "every tensor and MAX_DEGREE", "why_tests_cant": "all tensors", "anchors": ["src/free_tensor/mod.rs: exp"]}
{"id": "C38", "title": "log is the truncated logarithm", "statement": "FreeTensor::log(1+x) is the truncated series x - x^2/2 + ..., in particular it depends on its argument.", "quantifier": "every tensor and MAX_DEGREE", "why_tests_cant": "all tensors", "anchors": ["src/free_tensor/mod.rs: log"]}
{"id": "C39", "title": "fmexp multiplies by the exponential", "statement": "x.fmexp(y) is x * exp(y - y_0) truncated at MAX_DEGREE.", "quantifier": "every pair of tensors and MAX_DEGREE", "why_tests_cant": "all tensors", "anchors": ["src/free_tensor/mod.rs: fmexp"]}
{"id": "C40", "title": "Sparse vectors behave like maps", "statement": "from_key/from_key_scalar/from_iterator/insert_single/get/get_mut/clear on a sparse vector behave like a finite map: get after insert_single(k,v) returns v, other keys unchanged; from_iterator keeps the last value given for each key.", "quantifier": "all keys, values, sequences", "why_tests_cant": "all keys and sequences", "anchors": ["src/vector/implementation/simple_sparse_vector.rs"]}
{"id": "C41", "title": "Sparse addition and subtraction are coefficientwise and independent of hash order", "statement": "After add_inplace/sub_inplace the coefficient at each key is the sum/difference (left only: unchanged, right only: v resp. uminus v; absent when the result equals ZERO), for every order in which the hash map of the right operand is iterated.", "quantifier": "all pairs of maps, every iteration order", "why_tests_cant": "hash iteration order is random per process", "anchors": ["src/vector/implementation/simple_sparse_vector.rs: add_inplace, sub_inplace"]}
{"id": "C42", "title": "Sparse arithmetic does not store ZERO coefficients", "statement": "Starting from vectors without stored ZERO, add_inplace, sub_inplace, uminus_inplace and scalar multiplication keep that invariant (scalars without zero divisors); hence sparse equality is equality of coefficients.", "quantifier": "all histories of operations", "why_tests_cant": "invariant over histories", "anchors": ["src/vector/implementation/simple_sparse_vector.rs: add_inplace, sub_inplace, scalar_lmultiply_inplace, PartialEq::eq"]}
{"id": "C43", "title": "Every Vector operation is available on sparse vectors", "statement": "uminus, add, sub, scalar_*multiply, scalar_*divide, the fused operations, swap, insert, erase and to_owned return normally on sparse vectors.", "quantifier": "all operands", "why_tests_cant": "all operands", "anchors": ["src/vector/implementation/simple_sparse_vector.rs: swap, to_owned, insert, erase", "src/vector/traits/vector.rs"]}
{"id": "C44", "title": "Sparse and dense vectors agree", "statement": "The same construction or arithmetic performed on sparse and on dense vectors yields the same coefficients.", "quantifier": "all operation sequences", "why_tests_cant": "all histories", "anchors": ["src/vector/implementation/simple_sparse_vector.rs", "src/vector/implementation/simple_dense_vector.rs"]}
{"id": "C45", "title": "The Moebius function used for Hall set sizes is correct and terminates", "statement": "is_squarefree(n) decides square-freeness and mobius(n) is the Moebius function of n for all n>=1.", "quantifier": "every n >= 1", "why_tests_cant": "all integers; the failing branch is first reached at n=6", "anchors": ["src/lie/lie_basis/degree_range_map.rs: is_squarefree, mobius"]}
{"id": "C46", "title": "hall_set_size is the dimension of the free Lie algebra up to a depth", "statement": "hall_set_size(w,d) is the sum over n<=d of (1/n) sum_{k|n} mu(k) w^(n/k).", "quantifier": "every width and depth without overflow", "why_tests_cant": "all widths; truncating division is applied to each term separately", "anchors": ["src/lie/lie_basis/degree_range_map.rs: hall_set_size, hall_set_level_size, hall_set_level_term"]}
{"id": "C47", "title": "DegreeRangeMap grows monotonically and answers consistently", "statement": "After new(d) and any sequence of grow calls, get(i) returns hall_set_size(N,i) for every i below the length and DegreeOutOfBounds above; grow never changes or removes an entry.", "quantifier": "all sequences of grow/get", "why_tests_cant": "histories", "anchors": ["src/lie/lie_basis/degree_range_map.rs: DegreeRangeMap::new, grow, get"]}
{"id": "C48", "title": "find_deg returns the degree of a Hall key", "statement": "find_deg(k) is the degree d of the k-th Hall element (1-based as in HallKey), i.e. size(d-1) < k <= size(d), and is always a degree present in the map.", "quantifier": "all maps and keys", "why_tests_cant": "boundary keys at each degree", "anchors": ["src/lie/lie_basis/degree_range_map.rs: find_deg", "src/lie/lie_basis/hall_set.rs: HallSetInner::degree"]}
{"id": "C49", "title": "HallKey packs and unpacks its fields", "statement": "A key made of key, lparent, rparent < 2^18 and size < 2^10 returns exactly these fields; from_letter(a) is valid, is a letter, has to_index a-1.", "quantifier": "all field values", "why_tests_cant": "2^64 combinations", "anchors": ["src/lie/lie_basis/hall_key.rs: make_key_data, get_key, get_lparent, get_rparent, size, from_letter, to_index"]}
{"id": "C50", "title": "A Hall set can be created for every alphabet and knows its letters", "statement": "HallSetInner::new terminates for each N and key_details of each letter 1..N returns that letter with degree 1.", "quantifier": "all N and letters", "why_tests_cant": "all N", "anchors": ["src/lie/lie_basis/hall_set.rs: HallSetInner::new, key_details, starting_size_for_width"]}
{"id": "C51", "title": "get_hall_set returns under every schedule", "statement": "For any number of threads calling get_hall_set in any interleaving, each call eventually can return, and all callers for one alphabet share one Hall set.", "quantifier": "every number of threads and every interleaving", "why_tests_cant": "schedules", "anchors": ["src/lie/lie_basis/hall_set.rs: get_hall_set, HALL_SET_CACHE"]}
{"id": "C52", "title": "A failed grow_up does not disable a shared Hall set", "statement": "After a call to grow_up on a HallSetObject, later queries through any clone still answer.", "quantifier": "every history of calls", "why_tests_cant": "histories", "anchors": ["src/lie/lie_basis/hall_set.rs: HallSetObject, HallSet::grow_up"]}
{"id": "C53", "title": "f32/f64 scalars", "statement": "For f64 and f32: addition and multiplication commute, uminus is an involution, ONE is neutral for mul and div, a-b = a+(-b), from_degree is exact for every u32 degree.", "quantifier": "all floating point values, all degrees", "why_tests_cant": "2^64 values", "anchors": ["src/coefficients/floating_point_fields.rs"]}
{"id": "C54", "title": "Exactly when concatenate gives the concatenated word", "statement": "For words u, v over 1..N whose total length is at most max_depth, k_u.concatenate(&k_v) is the key of uv, except when N >= 2^31, u is empty and v has two letters: then a build with overflow checks panics (shift by 64) and a build without them still gives the key of v.", "quantifier": "every N, every pair of words of total length <= max_depth, every profile", "why_tests_cant": "the failing case needs N >= 2^31", "anchors": ["src/free_tensor/tensor_basis/tensor_key.rs: concatenate"]}
{"id": "C55", "title": "to_letters lists the letters from last to first", "statement": "to_letters() of the key of w returns the reverse of w without panicking; it equals w exactly for palindromes.", "quantifier": "every N, word within max_depth, profile", "why_tests_cant": "all words", "anchors": ["src/free_tensor/tensor_basis/tensor_key.rs: to_letters"]}
{"id": "C56", "title": "What compare computes", "statement": "compare is a total preorder that compares the words lexicographically after extending the shorter one on the left by letters 1; on keys of one degree it is the order of key_to_index and Equal means equal.", "quantifier": "every N, every pair of words within max_depth", "why_tests_cant": "all pairs of words of different lengths", "anchors": ["src/free_tensor/tensor_basis/mod.rs: compare"]}
{"id": "C57", "title": "How far iter_keys can be trusted", "statement": "For N>=3 the first 1+N+3N items of iter_keys() are index_to_key(0), index_to_key(1), ... and the next one is a different key; for N=2 this holds for the first 15 items; for N=1 all 60 keys are produced in order and then None for ever. starting_from(k) is right while only the last letter has to change.", "quantifier": "every N, every number of calls within the bound, every profile", "why_tests_cant": "the position of the first error grows with N", "anchors": ["src/free_tensor/tensor_basis/key_iterator.rs: next", "src/free_tensor/tensor_basis/tensor_key.rs: set_letter"]}
{"id": "C58", "title": "Building a dense vector from keys never writes outside the new buffer", "statement": "from_key, from_key_scalar and from_iterator, called from safe code with any key of the basis type, never perform an out-of-bounds access.", "quantifier": "every key obtainable from safe code, every alphabet, every ordered basis, every build profile", "why_tests_cant": "undefined behaviour need not be visible in a test run; the failing keys are outside the tested alphabets", "anchors": ["src/vector/implementation/simple_dense_vector.rs: from_key, from_key_scalar, from_iterator", "src/free_tensor/tensor_basis/tensor_key.rs: from_letter", "src/free_tensor/tensor_basis/mod.rs: vector_dimension_for_key"]}
{"id": "C59", "title": "degree() is the length of the longest stored word", "statement": "For a dense tensor whose last stored position is that of the word w, degree() is |w| and every key whose coefficient can be read has a word of length at most |w|; the empty vector has degree 0; resizing to start_of_degree(d+1) gives degree d.", "quantifier": "every alphabet of at least two letters, every vector whose degree+1 power fits in 64 bits, every profile", "why_tests_cant": "all sizes", "anchors": ["src/vector/implementation/simple_dense_vector.rs: degree, resize", "src/free_tensor/tensor_basis/mod.rs: index_to_degree, start_of_degree"]}
{"id": "C60", "title": "Dense vectors can be printed", "statement": "Formatting a SimpleDenseVector over the tensor basis with {} returns a text with every coefficient and its key.", "quantifier": "every alphabet, every vector, every stack depth", "why_tests_cant": "non-termination", "anchors": ["src/vector/implementation/simple_dense_vector.rs: Display", "src/free_tensor/tensor_basis/tensor_key.rs: Display"]}
{"id": "C61", "title": "Products without a truncation degree never return a result", "statement": "multiply, multiply_inplace, add_mul, sub_mul, commutator, mul_scal_lprod, mul_scal_rprod, mul_rat_ldiv and mul_rat_rdiv called with to_degree = None return for no operands; they panic whenever the degrees of the operands are computed without overflow.", "quantifier": "every alphabet, all operands, scalars and profiles", "why_tests_cant": "all operands of nine operations", "anchors": ["src/algebra/mod.rs: all methods of Algebra", "src/free_tensor/implementation/dense.rs: multiply_and_add_into_impl, multiply_into_impl"]}
{"id": "C62", "title": "Exactly when the out-of-place products are memory safe", "statement": "add_mul and sub_mul with Some(t) on operands of degrees l and r, m = min(t, l+r), return if the target either has degree < m or stores all words up to degree m, and each operand stores all words up to min(m, its degree); in every other case they are undefined behaviour. multiply returns exactly if in addition m >= 1. If N^(m+1) does not fit in 64 bits, add_mul and sub_mul panic in builds with overflow checks.", "quantifier": "every alphabet of at least two letters, all operands whose degree+1 power fits in 64 bits, every truncation degree, every profile", "why_tests_cant": "undefined behaviour need not be visible in a test run", "anchors": ["src/free_tensor/implementation/dense.rs: multiply_and_add_into_impl, dense_tensor_multiply_into_buffer"]}
{"id": "C63", "title": "What the in-place products do", "statement": "On filled operands x (degree l), y (degree r), with m = min(t, l+r) and any scaling function: m = 0 leaves x unchanged. If r = 0 and m >= 1: y = c*unit with c = 0 is undefined behaviour, c = 1 leaves x unchanged (unscaled), any other c replaces the coefficients of the words of length 1..m by the scaled products and leaves the others. With overflow checks: if r = 1, c = 0 or c = 1 is undefined behaviour, l = 0 panics, and the only calls that return are l = 1, m = 2 and l >= 2, m = 1, with the result stated exactly; if r >= 2 and m >= 1 no call returns.", "quantifier": "every scalar type, alphabet, filled operands of any degree, to_degree and scaling function; r <= 0 for every build, r >= 1 for builds with overflow checks", "why_tests_cant": "unbounded degrees; the branches depend on the degrees and on one coefficient", "anchors": ["src/free_tensor/implementation/dense.rs: multiply_into_impl"]}
{"id": "C64", "title": "What exp, log and fmexp do on dense tensors", "statement": "exp of a multiple of the unit or of the empty vector is MAX_DEGREE times the unit; exp with MAX_DEGREE <= 1 is the unit; exp of a tensor of degree >= 1 with MAX_DEGREE >= 2 never returns in a build with overflow checks. fmexp of two multiples of the unit is MAX_DEGREE times the first; with MAX_DEGREE <= 1 it is the identity; with MAX_DEGREE >= 2 and an operand of degree >= 1 it never returns in a build with overflow checks, and is undefined behaviour in every build for the empty argument. log of a tensor of degree >= 1 is the sum of (-1)^(i+1)/i, i = MAX_DEGREE-1..1, times the unit, independent of the tensor; log of a multiple of the unit is undefined behaviour if MAX_DEGREE >= 2.", "quantifier": "every scalar type, alphabet of 2..2^32-1 letters, MAX_DEGREE, filled operands", "why_tests_cant": "unbounded degrees and constants; no type of the crate implements the trait, so no test can call it", "anchors": ["src/free_tensor/mod.rs: exp, log, fmexp"]}
{"id": "C65", "title": "The loops of exp, fmexp and log over an exact algebra", "statement": "For any implementing type whose operations are exact (in particular mul_rat_rdiv divides): exp(x) is 1 + x + ... + x^K/K! with K = MAX_DEGREE-1, so the term x^MAX_DEGREE/MAX_DEGREE! is missing; x.fmexp(y) is x*(1 + y' + ... + y'^K/K!) for words up to length MAX_DEGREE (y' is y without its constant term), words beyond keep their coefficient in x, although each product is truncated earlier; log is a constant times the unit, the same for every argument.", "quantifier": "every implementing type, scalar ring, alphabet and MAX_DEGREE", "why_tests_cant": "no implementing type exists to test; quantifies over all of them", "anchors": ["src/free_tensor/mod.rs: exp, log, fmexp"]}
{"id": "C66", "title": "VectorKeyExt on sparse vectors", "statement": "On a sparse vector add_scalar_multiply, sub_scalar_multiply and add_scalar_divide add v, -v, 1/r to the coefficient of the key and change no other key; sub_scalar_divide subtracts 1/r when the key is absent but adds 1/r when it is stored.", "quantifier": "every scalar type, map, key and scalar", "why_tests_cant": "the sign depends on whether the key is stored", "anchors": ["src/vector/traits/vector.rs: VectorKeyExt", "src/vector/implementation/simple_sparse_vector.rs"]}
{"id": "C67", "title": "Exactly which operations of sparse vectors are available", "statement": "swap, to_owned, insert, erase, uminus, add, sub, scalar_*multiply, scalar_*divide and all fused operations panic for all operands; constructors, clear, get, get_mut, insert_single and the in-place operations return for all operands.", "quantifier": "all operands, every iteration order", "why_tests_cant": "all operands", "anchors": ["src/vector/implementation/simple_sparse_vector.rs", "src/vector/traits/vector.rs"]}
{"id": "C68", "title": "Exactly what is_squarefree and mobius do", "statement": "For every n < 2^64 and every build: is_squarefree(n) returns whether n is squarefree, except that it panics (remainder by zero, or overflow when checked) for squarefree n > (2^32-1)^2. mobius(n) returns 1 for n=1, 0 for n with a square factor, -1 for primes up to (2^32-1)^2; it never ends for every squarefree composite n up to (2^32-1)^2 and panics for larger squarefree n. Whatever it returns is the Moebius function of n.", "quantifier": "every n in 1..2^64-1, every profile", "why_tests_cant": "unbounded recursion; all 64-bit numbers", "anchors": ["src/lie/lie_basis/degree_range_map.rs: is_squarefree, mobius, mobius_impl"]}
{"id": "C69", "title": "Exactly when hall_set_size returns", "statement": "With overflow checks hall_set_size(w,d) panics if w^min(d,6) >= 2^63; otherwise it returns for d <= 5 and never ends for d >= 6. Without them it never ends for d >= 6 and returns for every d <= 5, with the value of the formula in wrapping arithmetic: each term mu(k) w^(n/k) reduced to a signed 64-bit number and divided by n towards zero, the sum reduced modulo 2^64; this can be wrong.", "quantifier": "every width < 2^32, depth and profile", "why_tests_cant": "non-termination and all widths", "anchors": ["src/lie/lie_basis/degree_range_map.rs: hall_set_size, hall_set_size_impl, hall_set_level_size"]}
{"id": "C70", "title": "When DegreeRangeMap::new and grow return", "statement": "Without overflow (N^5 < 2^63, or a build without overflow checks), new(d) returns exactly for d <= 6, and grow(r) on a map of length L returns exactly if r <= 5 or r < L.", "quantifier": "every N, degree, map and profile", "why_tests_cant": "non-termination", "anchors": ["src/lie/lie_basis/degree_range_map.rs: DegreeRangeMap::new, grow"]}
{"id": "C71", "title": "Exactly what find_deg returns", "statement": "For every map built by new and grow (N^5 < 2^63): on an empty map MapIsEmpty; for a key above the last size DegreeOutOfBounds; otherwise the number of degrees i in the map with size(i) <= key. This is the degree of the key-th Hall element exactly if the key is not the last key of its degree.", "quantifier": "all N, histories and keys", "why_tests_cant": "boundary keys of all alphabets", "anchors": ["src/lie/lie_basis/degree_range_map.rs: find_deg"]}
{"id": "C72", "title": "HallKey::from_letter and to_index for every letter", "statement": "For each letter a in 1..N the key made by from_letter has key field a mod 2^18, left parent a div 2^18, right parent a mod 2^18 and size (1 + h) mod 2^10 with h = (a mod 2^28) div 2^18, so it counts as a letter exactly if h = 0; with overflow checks from_letter panics exactly if h = 1023. to_index of a key is its key field minus 1; for a key field of 0 it panics with overflow checks and gives 2^64-1 without. Letters outside 1..N panic with debug assertions.", "quantifier": "every u32 letter, every N, every profile", "why_tests_cant": "alphabets above 2^18 letters", "anchors": ["src/lie/lie_basis/hall_key.rs: from_letter, to_index, is_letter", "src/implementation.rs: make_mask"]}
{"id": "C73", "title": "How Hall keys are printed", "statement": "Debug prints all four fields of a key; Display prints the key field of a letter and [left, right] of any other key.", "quantifier": "all field values in range, every profile", "why_tests_cant": "all keys", "anchors": ["src/lie/lie_basis/hall_key.rs: Debug, Display"]}
{"id": "C74", "title": "Everything a new Hall set answers", "statement": "HallSetInner::new never ends for N in 2..=10 and returns for all other N. After any calls of its own grow_up: the current degree is the largest requested one; key, left parent and right parent details of every key but 0 are HallSetTooSmall; of key 0 they are (0,0,0,1) (degree 2 for N=0); degree_range(0) = (0,N), degree_range(1) = (N, N+N(N-1)/2) for N in 11..=20, all others HallSetTooSmall. Nothing panics. Whatever a Hall set stores, the left and right parent details of a key with key details are the key details of that parent, or a panic if there are none.", "quantifier": "every N, every history of grow_up, every key and degree", "why_tests_cant": "histories; all N", "anchors": ["src/lie/lie_basis/hall_set.rs: HallSetInner"]}
{"id": "C75", "title": "What get_hall_set does instead of returning", "statement": "Under every schedule of any number of threads: for N in 2..=10 a call never leaves HallSetInner::new; for other N it reaches write() while holding its own read guard, where it blocks for ever or, on platforms where write() panics, panics. The lock is never poisoned.", "quantifier": "every number of threads and every interleaving", "why_tests_cant": "schedules", "anchors": ["src/lie/lie_basis/hall_set.rs: get_hall_set, HALL_SET_CACHE"]}
{"id": "C76", "title": "Every history of calls on a shared Hall set", "statement": "On an object as get_hall_set makes it, and through any clones: before the first grow_up each query is answered without panic and as if it were the first; the first grow_up panics; from then on each query returns HallSetReadError and each grow_up HallSetWriteError.", "quantifier": "every history of calls", "why_tests_cant": "histories", "anchors": ["src/lie/lie_basis/hall_set.rs: HallSetObject"]}
{"id": "C77", "title": "HallKey::lparent and parent", "statement": "lparent and parent are the same function. With a Hall set as get_hall_set makes it they panic for every key whose right parent field is not 0, in particular for every letter a with a mod 2^18 <> 0, and give the key (0,0,0) of size 1 otherwise (size 2 for N=0).", "quantifier": "every key, every N", "why_tests_cant": "all keys", "anchors": ["src/lie/lie_basis/hall_key.rs: lparent, parent"]}
{"id": "C78", "title": "from_degree rounds to a nearest floating point number", "statement": "For f32 and f64 and every u32 degree d, from_degree(d) is finite and no number of the type is closer to d; it equals d exactly when some number of the type does. So it is exact for every d in f64 and for every d <= 2^24 in f32.", "quantifier": "both types, all 2^32 degrees, all floats", "why_tests_cant": "2^32 degrees against 2^64 floats", "anchors": ["src/coefficients/floating_point_fields.rs: from_degree"]}
{"id": "C79", "title": "Which ring laws f32 and f64 have", "statement": "ZERO+x = x except for -0.0 (which gives 0.0); x + (-x) = ZERO exactly for finite x; x == x exactly when x is not NaN; x == y exactly when they are the same non-NaN value or both zeros. Addition and multiplication are not associative and multiplication does not distribute, even when all results are finite.", "quantifier": "all floats of both types", "why_tests_cant": "2^64 values", "anchors": ["src/coefficients/floating_point_fields.rs"]}
{"id": "C80", "title": "Adding and subtracting dense vectors of floats", "statement": "For dense vectors over f32 or f64, x.add(y) and y.add(x) have the same size and coefficients that are equal or both zeros, and are identical when x and y have equal size; x.sub(x) is ZERO exactly where x is finite and NaN elsewhere; addition of vectors is not associative.", "quantifier": "all vectors of floats, of all sizes", "why_tests_cant": "all floats, all sizes", "anchors": ["src/coefficients/floating_point_fields.rs", "src/vector/implementation/simple_dense_vector.rs: add_inplace, sub_inplace"]}
{"id": "C81", "title": "Integer tensors in floating point are multiplied exactly", "statement": "If all coefficients of x and y are integers (stored as f32 or f64), then every coefficient of x.multiply(y, Some(t)) whose terms have absolute values summing to less than 2^24 (f32) or 2^53 (f64) is exactly the integer sum of products; likewise each coefficient of x.add(y) that is below the bound.", "quantifier": "all pairs of integer tensors of the degrees in question, both types, every profile", "why_tests_cant": "all tensors", "anchors": ["src/coefficients/floating_point_fields.rs", "src/algebra/mod.rs: multiply", "src/vector/implementation/simple_dense_vector.rs: add"]}
{"id": "C82", "title": "The in-place products by a tensor of degree at least 1, in every build", "statement": "Filled operands x (degree l), y (degree r >= 1), m = min(t, l+r) >= 1, c the constant term of y, any scaling function f. If m < r: a build with overflow checks panics; without them c = 0 is undefined behaviour, c = 1 leaves all coefficients of x (padded to degree m), any other c is undefined behaviour for l = 0 and for l >= 1 replaces each coefficient v of a word of length 1..m by v multiplied through f by all coefficients of one degree of y in turn. If m >= r: c = 0 or 1 is undefined behaviour in every build; any other c returns only for l = 1, m = r+1 (r = 1, or no overflow checks) and for r = 1, m = 1, l >= 2, with the coefficients given; all else panics or is undefined behaviour as listed. In every build the constant term of the result, if there is one, is that of x.", "quantifier": "every build, scalar type, alphabet, filled operands of any degree with indices in 64 bits, to_degree and scaling function", "why_tests_cant": "unbounded degrees; the wrapped loops exist only in builds tests do not use", "anchors": ["src/free_tensor/implementation/dense.rs: multiply_into_impl"]}
{"id": "C83", "title": "What exp and fmexp do on tensors of degree at least 1, in every build", "statement": "For MAX_DEGREE >= 2: exp(x) of a filled x of degree d >= 1 returns exactly when overflow checks are off, MAX_DEGREE < d and the constant term of x is 1; then it is MAX_DEGREE times the unit, padded to degree MAX_DEGREE. Otherwise it panics (overflow checks on, and MAX_DEGREE < d or a constant term other than 0 and 1) or is undefined behaviour. x.fmexp(y) with an operand of degree >= 1 panics when overflow checks are on and y has degree >= 3, and is undefined behaviour in all other cases.", "quantifier": "every build, scalar type, alphabet of 2..2^32-1 letters, MAX_DEGREE, filled operands", "why_tests_cant": "no type of the crate implements the trait, so no test can call it", "anchors": ["src/free_tensor/mod.rs: exp, fmexp"]}
{"id": "C84", "title": "f32 and f64 scalars and dense vectors over them are correctly rounded", "statement": "For finite f32 or f64 values, add, sub, mul, and div and inv by non-zero values return the number of the type nearest to the exact result, ties going to the even significand, and the infinity of the right sign exactly from half a unit above the largest number on; this determines the number returned. uminus is exact. Division by zero gives NaN or the infinity of the right sign. The coefficients of x.add(y), x.sub(y), of a scalar multiple and of a scalar quotient of dense vectors are the correctly rounded sums, differences, products and quotients of the coefficients.", "quantifier": "all pairs of floats of both types, dense vectors of all sizes", "why_tests_cant": "2^128 pairs of f64 values", "anchors": ["src/coefficients/floating_point_fields.rs: add, sub, mul, div, inv, uminus", "src/vector/implementation/simple_dense_vector.rs: add, sub, scalar_lmultiply, scalar_rdivide"]}
{"id": "C85", "title": "Accuracy of products of floating point tensors", "statement": "With u = 2^-24 (f32) or 2^-53 (f64), e half the smallest positive number, and k = |w|+1: every finite coefficient of the word w in x.multiply(y, Some(t)) differs from the exact sum of products by at most ((1+u)^k - 1) times the sum of the absolute values of the products plus k (1+u)^k e; it is finite when the coefficients are and (1+u)^(k+1) times that sum plus k (1+u)^k e is below the overflow limit. For add_mul and sub_mul the coefficient already there counts with factor (1+u)^k - 1 and the products with (1+u)^(k+1) - 1.", "quantifier": "all pairs of float tensors of all degrees, alphabets, both types, every profile", "why_tests_cant": "the bound grows with the length of the word; all floats", "anchors": ["src/coefficients/floating_point_fields.rs", "src/algebra/mod.rs: multiply, add_mul, sub_mul"]}
{"id": "C86", "title": "Conversions from small integers and from_rational", "statement": "The f32 and f64 obtained from an i8 or i16 is exactly that integer. from_rational(a, b) of such integers is the correctly rounded quotient, always finite for b != 0, and exact when the quotient is a number of the type; for b = 0 it is NaN when a = 0 and otherwise the infinity with the sign of a.", "quantifier": "all i16 pairs, both types", "why_tests_cant": "2^32 pairs; exactness of the nearest float needs all floats", "anchors": ["src/coefficients/mod.rs: from_rational", "src/coefficients/floating_point_fields.rs"]}
{"id": "C87", "title": "get_slice reads exactly the named positions", "statement": "For every kind of index of std (a position, a..b, a.., ..b, .., a..=b, ..=b) get_slice of a dense vector returns Some exactly when the ends are in order and inside the vector; the slice then holds the coefficients of exactly the positions named, in order. For start_of_degree(d)..start_of_degree(d+1) of a tensor it returns Some exactly when all words of length d are stored, and the slice holds what get returns for each of them, in the order of the basis.", "quantifier": "all vectors of every size and storage, all indices, all alphabets and degrees with indices in 64 bits", "why_tests_cant": "all sizes and ranges", "anchors": ["src/vector/traits/dense_vector.rs: get_slice", "src/vector/implementation/simple_dense_vector.rs: as_slice"]}
{"id": "C88", "title": "get_mut_slice: copy on write and writes through", "statement": "get_mut_slice returns Some under the same condition as get_slice and with the same contents. The call alone turns a vector that borrows its buffer into one that owns a copy, also when it returns None, and changes no coefficient and no lent buffer. Writing other values into the slice changes exactly the positions named, keeps the size, reaches the buffer of a vector that borrows it mutably and no other buffer.", "quantifier": "all vectors, storages, indices and values written", "why_tests_cant": "all sizes, ranges and values", "anchors": ["src/vector/traits/dense_vector.rs: get_mut_slice", "src/vector/implementation/simple_dense_vector.rs: as_mut_slice"]}
{"id": "C89", "title": "from_degree of a dense tensor", "statement": "from_degree(d) is an owned vector of zeros that stores exactly the words of length less than d, so degree() of it is d-1 (0 for d = 0), not d.", "quantifier": "every scalar type, alphabet of 2..2^32-1 letters, every d with n^d < 2^64, every build", "why_tests_cant": "all degrees and words", "anchors": ["src/vector/implementation/simple_dense_vector.rs: from_degree, degree"]}
{"id": "C90", "title": "The closure passed to a product: its calls and where its results go", "statement": "multiply_and_add_into_impl with any closure, with any state and possibly panicking, calls it once for each pair of words u, v with |u| <= deg x, |v| <= deg y, |u|+|v| <= m = min(to_degree, deg x + deg y), on x_u * y_v, by decreasing |u|+|v|, then decreasing |u|, then u and v lexicographically. The result of each call is added to the coefficient of the word uv, in this order. If a call panics, no more calls are made and self has exactly the results of the calls before it added.", "quantifier": "every closure, state, scalar type, build, and all operands for which the product is defined", "why_tests_cant": "closures are functions of their whole history; unbounded degrees", "anchors": ["src/algebra/mod.rs: multiply_and_add_into_impl", "src/free_tensor/implementation/dense.rs: multiply_and_add_into_impl, dense_tensor_multiply_into_buffer"]}
{"id": "C91", "title": "Products with pure closures", "statement": "For a closure that is a pure function f and never panics, the products multiply_and_add_into_impl and multiply_into_impl return, panic, are undefined or run forever exactly as the products modelled with f are (of which the other properties speak), with the same result, and leave the state of the closure.", "quantifier": "all operands, all degrees, all builds, all pure closures", "why_tests_cant": "all operands", "anchors": ["src/algebra/mod.rs: multiply_and_add_into_impl, multiply_into_impl", "src/free_tensor/implementation/dense.rs"]}
{"id": "C92", "title": "exp and fmexp with commuting arguments", "statement": "Over a field, for types whose product is the truncated tensor product: exp(x) exp(y) and exp(x+y) have the same coefficients on all words shorter than MAX_DEGREE if x and y commute and have constant term 0. x.fmexp(y).fmexp(z) and x.fmexp(y+z) agree on all words of length other than MAX_DEGREE if the non-constant parts of y and z commute. x.fmexp(y).fmexp(-y) is x again except on words of length exactly MAX_DEGREE when MAX_DEGREE is even, where it is x_w - 2 x_[] (y^MAX_DEGREE)_w / MAX_DEGREE!, as the loops leave out the last term.", "quantifier": "every field, alphabet, MAX_DEGREE, all tensors, all words", "why_tests_cant": "no type of the crate implements the trait; identities over all tensors", "anchors": ["src/free_tensor/mod.rs: exp, fmexp"]}
{"id": "C93", "title": "Equality of floats and of vectors of floats", "statement": "== on f32 and f64 scalars is true exactly when both are the same number (0 and -0 are) or the same infinity. Two dense vectors are == exactly when they have the same size and == coefficients at every position; two sparse vectors exactly when they store the same keys with == values. Both are symmetric and transitive, and a vector is == to itself exactly when it stores no NaN.", "quantifier": "all floats of both types, all dense and sparse vectors, every iteration order", "why_tests_cant": "2^128 pairs of f64 values", "anchors": ["src/coefficients/floating_point_fields.rs", "src/vector/implementation/simple_dense_vector.rs: PartialEq::eq", "src/vector/implementation/simple_sparse_vector.rs: PartialEq::eq"]}
{"id": "C94", "title": "Sparse vectors of floats are correctly rounded", "statement": "For sparse vectors of finite floats the coefficients after add_inplace, sub_inplace, scalar_lmultiply_inplace and scalar_rdivide_inplace by a non-zero scalar are the correctly rounded sums, differences, products and quotients of the coefficients, an absent key counting as 0. A key stored in both operands is absent afterwards exactly when the rounded sum or difference is a zero; otherwise the rounded value is stored.", "quantifier": "all sparse vectors of both types, every key type and iteration order", "why_tests_cant": "all floats and iteration orders", "anchors": ["src/vector/implementation/simple_sparse_vector.rs: add_inplace, sub_inplace, scalar_lmultiply_inplace, scalar_rdivide_inplace", "src/coefficients/floating_point_fields.rs"]}
{"id": "C95", "title": "Every history of calls on a sparse vector", "statement": "Any finite sequence of calls of the methods of Vector and VectorKeyExt that change a vector, each seeing the entries of the hash maps in an order of its own, ends with exactly the entries given by a machine on partial functions from keys to scalars; get and iteration show these. It panics exactly if one of the calls is to swap, insert, erase or one of the eight fused methods. The result does not depend on the iteration orders. No law of the scalars is assumed.", "quantifier": "all key types, scalar types, sparse vectors, finite sequences of calls, iteration orders", "why_tests_cant": "all histories and iteration orders", "anchors": ["src/vector/implementation/simple_sparse_vector.rs", "src/vector/traits/vector.rs", "src/vector/traits/extension.rs"]}
{"id": "C96", "title": "How many scalar products a tensor product computes", "statement": "multiply_and_add_into_impl of tensors of degrees l and r up to degree m = min(to_degree, l+r) calls its closure exactly sum over k <= m of (min(l,k) + 1 - max(0,k-r)) n^k times, as a closure counting its calls shows. Without truncation this is the number of words of length at most l times the number of words of length at most r.", "quantifier": "every alphabet, all degrees, every scalar type, build, and pure part of the closure", "why_tests_cant": "all degrees and alphabets", "anchors": ["src/algebra/mod.rs: multiply_and_add_into_impl", "src/free_tensor/implementation/dense.rs: multiply_and_add_into_impl"]}
{"id": "C97", "title": "Texts of the errors of Hall sets", "statement": "The Display text of a DegreeRangeMapError is 'degree range map is empty' or 'requested degree is out of bounds'. The Display text of a HallSetError is 'the hall set is not sufficiently large' for HallSetTooSmall, 'an unknown error occured' for read and write errors, and for OtherError around any error 'another error occurred: ' and the text of that error; so k nested wrappers print k such prefixes and the innermost text. to_string panics exactly if the Display of a type of the user inside fails; errors of the crate alone never do. Every call on a Hall set after the first grow_up gets an error that reads 'an unknown error occured' and has no cause.", "quantifier": "all errors, any nesting, any error types of the user inside, all histories of calls", "why_tests_cant": "unbounded nesting and histories", "anchors": ["src/lie/lie_basis/hall_set.rs: HallSetError, Display", "src/lie/lie_basis/degree_range_map.rs: DegreeRangeMapError"]}
{"id": "C98", "title": "The text of an error identifies it", "statement": "Two errors of the crate, nested in any way, with the same Display text are the same error; likewise for the Debug text.", "quantifier": "all errors of the crate, any nesting", "why_tests_cant": "unbounded nesting", "anchors": ["src/lie/lie_basis/hall_set.rs: Display, Debug", "src/lie/lie_basis/degree_range_map.rs: Display, Debug"]}
{"id": "C99", "title": "The chain of causes of an error", "statement": "Following cause() or source() from OtherError leads through all wrappers to the innermost error and then along its own chain. Plain errors have no cause, and the conversion of a DegreeRangeMapError gives HallSetTooSmall without a cause.", "quantifier": "all errors, any nesting, any error types of the user", "why_tests_cant": "unbounded nesting", "anchors": ["src/lie/lie_basis/hall_set.rs: Error::cause, From<DegreeRangeMapError>"]}
{"id": "C100", "title": "Lie polynomials are primitive and products of group-like tensors are group-like", "statement": "A tensor is group-like up to degree k if its constant term is 1 and x_u x_v is the sum of x_w over all shuffles w of u and v with total length at most k; primitive if its constant term is 0 and these sums are 0 for non-empty u and v. For dense tensors over a commutative ring: multiply of two tensors group-like up to k <= to_degree returns one; commutator of two primitive tensors returns a primitive one; and every expression built from letters (TensorKey::from_letter, from_key) by add, sub, uminus, scalar_lmultiply and commutator up to degree t returns a tensor that is primitive in every degree.", "quantifier": "every commutative ring, alphabet, truncation degree with n^(t+1) < 2^64, all dense tensors and Lie expressions, all pairs of words, all builds", "why_tests_cant": "unbounded expressions, words and scalars", "anchors": ["src/algebra/mod.rs: multiply, commutator", "src/free_tensor/implementation/dense.rs", "src/vector/implementation/simple_dense_vector.rs", "src/free_tensor/tensor_basis/tensor_key.rs: from_letter"]}
{"id": "C101", "title": "Exponentials of primitive tensors are group-like below MAX_DEGREE", "statement": "Over a field, for types whose product is the truncated tensor product: exp of a tensor primitive below MAX_DEGREE is group-like below MAX_DEGREE; starting from a tensor that is group-like below MAX_DEGREE, any sequence of calls of fmexp with increments whose non-constant parts are primitive stays group-like below MAX_DEGREE. In degree MAX_DEGREE itself this always fails, if MAX_DEGREE >= 2, for fmexp of the unit by an increment of degree at most 1 in which some letter has coefficient 1, as the loops leave out the last term.", "quantifier": "every field, alphabet, MAX_DEGREE, all tensors, all sequences of increments, all pairs of words", "why_tests_cant": "unbounded sequences and words; no type of the crate implements the trait", "anchors": ["src/free_tensor/mod.rs: exp, fmexp"]}
{"id": "C102", "title": "Signatures of piecewise linear paths", "statement": "Over a field, for types whose product is the truncated tensor product: following increments ys and then zs from the unit with fmexp gives, on all words, the product up to MAX_DEGREE of following ys and following zs (Chen's identity). Following ys and then their negatives in reverse order from any x gives x back on all words of length other than MAX_DEGREE. The coefficient of a word w shorter than MAX_DEGREE after one increment y of degree at most 1 from the unit is the product of the coefficients of the letters of w in y, divided by the factorial of the length of w.", "quantifier": "every field, alphabet, MAX_DEGREE, all sequences of increments, all words", "why_tests_cant": "unbounded sequences; no type of the crate implements the trait", "anchors": ["src/free_tensor/mod.rs: fmexp"]}
{"id": "C103", "title": "Sizes of degrees in builds without overflow checks", "statement": "Without overflow checks and for N != 1, start_of_degree(d) is (N^d - 1) mod 2^64 divided by (N - 1) mod 2^64, and vector_dimension_for_key(k) is that value for degree(k)+1. index_to_degree(i) returns the d for which d+1 is the first degree with i < start_of_degree(d+1), and never returns if no degree below 2^32 has this. For a word w over N >= 2 letters the answer is the length of w exactly when the index of w is less than start_of_degree(len w + 1); there are words within max_depth, already over 31 letters, for which the answer is wrong, and over 2^22 letters, for which there is none.", "quantifier": "every N, every degree below 2^32, every index, every profile without overflow checks", "why_tests_cant": "wrong values only appear for 64-bit indices; a test cannot show that a search never ends", "anchors": ["src/free_tensor/tensor_basis/mod.rs: start_of_degree, index_to_degree, index_to_degree_impl, vector_dimension_for_key"]}
{"id": "C104", "title": "Dense tensors over alphabets with at most one letter", "statement": "Over one letter, in every build and for all arguments, from_key, from_key_scalar, from_degree, multiply, add_mul, sub_mul, commutator, exp and log of dense tensors panic, and degree() panics for vectors with more than two coefficients. Over no letters, a build with overflow checks panics in from_key_scalar for every key and in multiply, add_mul, sub_mul and commutator for all arguments; without overflow checks start_of_degree counts the words, from_key_scalar of the empty word works, and every multiply of vectors with at most one coefficient is undefined behaviour.", "quantifier": "every scalar type, vector, key, truncation degree and profile", "why_tests_cant": "division by zero for one value of a const generic parameter; all arguments", "anchors": ["src/free_tensor/tensor_basis/mod.rs: start_of_degree", "src/vector/implementation/simple_dense_vector.rs: from_key_scalar, from_degree", "src/free_tensor/implementation/dense.rs: multiply_and_add_into_impl", "src/free_tensor/mod.rs: exp, log"]}
{"id": "C105", "title": "Key operations with arguments of any value", "statement": "With b = floor(log2 N) + 1 bits per letter. from_letter(a) is the key of length 1 with data a-1, whatever a; from_letter(0) panics with overflow checks and has data 2^64-1 without. get_letter(i) is 1 plus the b bits of data at bit i*b, whatever the size of the key; if i*b >= 64, or the result exceeds 32 bits, it panics with overflow checks, and without them uses i*b modulo 64 and wraps; on the key of a word it is 1 for every position beyond the word inside the 64 bits. push_front(a) panics with debug assertions if the key has max_depth letters or a is not in 1..N; without them it adds the low b bits of a-1 at bit size*b, panicking on overflow with overflow checks and wrapping without. concatenate shifts and adds in the same way. from_letters without debug assertions adds all letters unmasked, modulo 2^64 without overflow checks, and panics for a letter 0 with them.", "quantifier": "every N, every key (any size and data), every letter and position of the argument types, every profile", "why_tests_cant": "2^64 arguments, all profiles; out-of-range arguments are accepted silently", "anchors": ["src/free_tensor/tensor_basis/tensor_key.rs: from_letter, from_letters, get_letter, push_front, concatenate"]}
{"id": "C106", "title": "The default methods of Algebra for every implementing type", "statement": "Let a type implement Algebra such that, whenever they return, multiply_and_add_into_impl adds func of each scalar product of lhs and rhs to the coefficients of self, and multiply_into_impl replaces self by the sum of func of each scalar product of self and rhs. Then over a commutative ring, whenever they return: multiply and multiply_inplace give the product, add_mul self + lhs*rhs, sub_mul self - lhs*rhs, commutator x*y - y*x, mul_scal_lprod and mul_scal_rprod the product multiplied by the scalar, mul_rat_ldiv (over a field) the product divided by the number; mul_rat_rdiv does not divide but multiplies by its argument. Each of them returns if the required methods do; commutator returns exactly when the two products do. If the product is associative and additive on both sides, commutator is alternating, antisymmetric and satisfies the Jacobi identity. The dense tensors use these defaults unchanged.", "quantifier": "every implementing type, inside or outside the crate, every commutative ring, all arguments and truncation degrees", "why_tests_cant": "quantifies over all implementations of a public trait", "anchors": ["src/algebra/mod.rs: multiply, multiply_inplace, add_mul, sub_mul, commutator, mul_scal_lprod, mul_scal_rprod, mul_rat_ldiv, mul_rat_rdiv"]}
{"id": "C107", "title": "index_to_key for every index", "statement": "Let b be the number of bits per letter and w the word over N >= 1 letters at position i of the length-then-lexicographic enumeration, for any 64-bit i. With overflow checks index_to_key(i) is the key of length len(w) whose data are the letters of w packed with b bits each, cut to 64 bits, if the last shift b*(len(w)-1) is less than 64, and panics otherwise. Without them it always returns, shifts being taken modulo 64. If the last shift is less than 64, key_to_index takes the key back to an index at most i, and to i exactly when the packed letters fit into 64 bits. So there are indices that come back as another index with the same key in every build, for example over 4 letters. Over no letters every index but 0 panics.", "quantifier": "every N below 2^32, every 64-bit index, every profile", "why_tests_cant": "2^64 indices; all profiles; failures only for words longer than max_depth", "anchors": ["src/free_tensor/tensor_basis/mod.rs: index_to_key, key_to_index", "src/free_tensor/tensor_basis/tensor_key.rs: push_front_raw"]}
{"id": "C108", "title": "What iter_keys enumerates", "statement": "Over N>=3 letters iter_keys() never yields a key of length 4 or more, and one of length 3 only if N is 3, 6, 11, 22, 43, ... (one more than a number with alternating binary digits of the width of a letter). Of the words of length 2 it yields only those whose first letter is 1, 2, 3, 6, 11, 22, ..., so with N>=4 the word (4,c) is never yielded. The items after the empty word and the letters are listed exactly up to the first overflow; from a point on (item 1+N+N(b+1), b the bits of a letter) they are keys of no word. For those special N whose letters take 22 bits or more None is yielded after exactly 1+N+N(b+1) keys. For all other N it is never yielded: with overflow checks some call of next() panics. Without overflow checks no call ever panics. Over 2 letters 8675 keys are yielded, then None for ever, instead of 2^31-1.", "quantifier": "every N with 3<=N<2^32 (and N=2), every number of calls, every profile", "why_tests_cant": "the number of calls until the panic is of the order of 2^64; all alphabets", "anchors": ["src/free_tensor/tensor_basis/key_iterator.rs: next, new", "src/free_tensor/tensor_basis/tensor_key.rs: set_letter, push_front, get_letter", "src/free_tensor/tensor_basis/mod.rs: iter_keys"]}
{"id": "C109", "title": "Exactly when the basis iterator goes to the next word", "statement": "Over N>=2 letters and from the key of any word w of at most max_depth letters, a call of next() leaves the iterator at the key of the word that follows w in length-then-lexicographic order exactly if w does not end in the letter N, or w = u a N with a<=2, or N<=4 and w = u 1 N N, or N=2 and w = u 1 N N N, or w is empty, (N), or (2,2) with N=2. From the last word (max_depth times N) the iterator ends. From any key at all a call returns that key or panics, and it panics only in builds with overflow checks or debug assertions.", "quantifier": "every N with 2<=N<2^32, every word within max_depth (for the last claim every key), every profile", "why_tests_cant": "the characterization covers all words and alphabets", "anchors": ["src/free_tensor/tensor_basis/key_iterator.rs: next, starting_from", "src/free_tensor/tensor_basis/tensor_key.rs: set_letter, push_front, get_letter"]}
{"id": "C110", "title": "Commutators of floating point tensors", "statement": "x.commutator(y, Some(t)) computes each coefficient by adding the products of x*y, longest left factor first, and then the negated products of y*x in the same order, whatever the scalars. Over f32 and f64, if the coefficient computed for a word w is a number, it differs from the exact coefficient of xy - yx by at most ((1+u)^k - 1) * (sum of the sizes of the terms of both products) + k (1+u)^k * (half the smallest positive float), with k = 2(|w|+1) and u the unit roundoff; it is a number if all coefficients of x and y are and the same sum, enlarged by (1+u)^(k+1), stays below the overflow threshold. If the coefficients are integers and the sizes of all terms add up to less than 2^24 (2^53), the commutator is exact. In general the commutator of a tensor with itself is not 0 over floats: for 1 + [1] + 2^24 [1,1] the coefficient of [1,1] is -1.", "quantifier": "f32 and f64, every alphabet of at least 2 letters, all tensors and truncation degrees with degrees addressable in 64 bits, every profile", "why_tests_cant": "error bound over all floating-point inputs", "anchors": ["src/algebra/mod.rs: commutator, add_mul, sub_mul", "src/free_tensor/implementation/dense.rs: multiply_and_add_into_impl", "src/coefficients/floating_point_fields.rs: add_inplace, mul, uminus"]}
{"id": "C111", "title": "Every program on dense tensors computes in the truncated tensor algebra", "statement": "Take any straight-line program on owned dense tensor variables made of new, from_key_scalar, from_degree, from_iterator, to_owned, clear, erase, assignments through get_mut, add_scalar_multiply and sub_scalar_multiply with a key, uminus_inplace, scalar_lmultiply_inplace, scalar_rdivide_inplace, add_inplace, sub_inplace, add_scalar_lmultiply, sub_scalar_lmultiply, add_scalar_rdivide, sub_scalar_rdivide, multiply, commutator, add_mul and sub_mul, with words that have keys and degrees up to D where N^(D+1)<2^64. Read each variable as a function from words to scalars (the coefficients) together with the degree up to which it has storage (none for new(), from_degree(0), from_iterator of nothing and after clear()). Writing to one key changes its coefficient if it is stored and nothing otherwise. Then the program does exactly what the same commands mean on such functions, with products truncated at the given degree: it returns and every variable is the function it should be, or it panics at the first product without a degree, or it accesses memory out of bounds at the first product in which a factor has no storage, or in which the result has no storage and the product has degree 0. get reads the function up to the stored degree. Programs that start from tensors of degree at least 1 and use no new, no clear, no scalar keys, no from_degree below 2, no from_iterator without a word, and only degrees of at least 1 never panic and never access memory out of bounds. The statements about storage, panics and accesses out of bounds hold for scalars without any laws, floating point numbers among them. Programs with the same meaning give equal tensors, in any two builds.", "quantifier": "all programs, all initial tensors, every N with 2<=N<2^32, every D with N^(D+1)<2^64, every profile; every field of scalars for the coefficients, any scalars for storage and safety", "why_tests_cant": "quantifies over all programs and all inputs", "anchors": ["src/algebra/mod.rs: multiply, add_mul, sub_mul, commutator", "src/free_tensor/implementation/dense.rs: multiply_and_add_into_impl", "src/vector/implementation/simple_dense_vector.rs: from_key_scalar, from_degree, from_iterator, get_mut, erase, clear, add_inplace, sub_inplace, uminus_inplace, scalar_lmultiply_inplace, scalar_rdivide_inplace", "src/vector/traits/vector.rs: add_scalar_lmultiply, sub_scalar_lmultiply, add_scalar_rdivide, sub_scalar_rdivide", "src/vector/traits/extension.rs: add_scalar_multiply, sub_scalar_multiply"]}
{"id": "C112", "title": "The index and the dimension of any key", "statement": "For a key of any size s and any 64 bits of data, also one that no word has: let the letters be the groups of letter_bits(N) bits plus 1. In builds with overflow checks key_to_index returns sum a_j N^(s-j) over the letters a_1..a_s if every group starts within the 64 bits, every letter fits into 32 bits and the sum is below 2^64, and panics otherwise; without overflow checks it returns the sum modulo 2^64 with bit positions counted modulo 64 and letters modulo 2^32. The iterator over the key gives the same letters, first letter first, and then None: with overflow checks its first m calls of next return if every group starts within the 64 bits and the first m letters fit into 32 bits, and panic otherwise; without checks they always return. to_letters and Debug give all letters, last letter first, under the same condition on all of them. vector_dimension_for_key returns the number of words of at most s letters if N^(s+1)<2^64 and panics otherwise; without checks it is the wrapped quotient. from_key_scalar panics if either of them does, accesses memory out of bounds exactly if the index is not below the dimension, and otherwise returns a vector of that dimension.", "quantifier": "every key with size<2^32 and 64-bit data, every N with N<2^32 (2<=N for dimensions), every profile, all scalars", "why_tests_cant": "all keys and alphabets; the overflowing sums need keys of ten letters over 127 letters", "anchors": ["src/free_tensor/tensor_basis/mod.rs: key_to_index, vector_dimension_for_key, start_of_degree", "src/free_tensor/tensor_basis/tensor_key.rs: get_letter, to_letters, Debug::fmt, TensorKeyIterator::next", "src/vector/implementation/simple_dense_vector.rs: from_key_scalar"]}
{"id": "C113", "title": "The bits set aside for the length of a key", "statement": "letter_mask(N) is letter_bits(N) ones. size_bits(N) is the logarithm, rounded down, of 63/letter_bits(N), and size_mask(N) is that many ones at the top of 64 bits; for N>=2^31 there are none and size_mask panics in builds with overflow checks. The data of the key of any word is 0 under the size mask: max_depth letters stay below it, one more would not. But the field is too small for its purpose for every N: it has at most log2(max_depth) bits, so that max_depth itself does not fit.", "quantifier": "every N<2^32, every word, every profile", "why_tests_cant": "the unit tests evaluate these functions for six alphabets", "anchors": ["src/free_tensor/tensor_basis/tensor_key.rs: bits_per_letter, size_bits, letter_mask, size_mask, max_depth", "src/implementation.rs: make_mask, const_logn"]}
{"id": "C114", "title": "Which scalar operations a program on dense tensors performs", "statement": "For a program as in C111, over scalars of any kind and without any law: every coefficient is computed by scalar operations in a fixed order. A coefficient of a product is the coefficient of the accumulator (zero for multiply and commutator) to which the products a(u)b(v), w = uv, are added one after the other, longest u first, leaving out the words beyond the degrees of the two factors; sub_mul and the second half of commutator negate each product before adding it. In-place methods on two tensors combine only where the second has storage, and those on one tensor only change what it stores. from_iterator adds the scalars given for a word to zero in their order. Every build leaves the same scalars, bit for bit for floats, or none.", "quantifier": "all programs, all initial tensors, every scalar type, every N with 2<=N<2^32, every D with N^(D+1)<2^64, every profile", "why_tests_cant": "quantifies over all programs and all implementations of the scalar trait", "anchors": ["src/algebra/mod.rs: multiply, add_mul, sub_mul, commutator", "src/free_tensor/implementation/dense.rs: multiply_and_add_into_impl", "src/vector/implementation/simple_dense_vector.rs: from_iterator, get_mut, add_inplace, sub_inplace, uminus_inplace, scalar_lmultiply_inplace, scalar_rdivide_inplace", "src/vector/traits/vector.rs: add_scalar_lmultiply, sub_scalar_lmultiply, add_scalar_rdivide, sub_scalar_rdivide", "src/vector/traits/extension.rs: add_scalar_multiply, sub_scalar_multiply"]}
{"id": "C115", "title": "Rounding errors of every program on floating point tensors", "statement": "Take a program as in C111 over f32 or f64 whose constants are finite and whose divisors are not 0, and start it with tensors that are within given errors of tensors of rational numbers. It returns, panics or accesses memory out of bounds as the same program does with exact arithmetic. If it returns, every coefficient that is a number is within an error of the exact one that is computed command by command: for the coefficient of w in the variable that a command changes, let s be the sum of the sizes of all the exact terms and m the same sum with every input enlarged by its error; then the error is at most (1+u)^k (m + j h) - s, where u is the unit roundoff, h half the smallest positive float, k the number of roundings (0 for copies, negations and constants, 1 for sums, multiples and additions to one coefficient, 2 for sums with a multiple or a quotient, one less than the number of scalars given for w in from_iterator, |w|+1 for multiply, |w|+2 for add_mul and sub_mul, 2|w|+2 for commutators) and j the number of products and quotients (0, 1, |w|+1 or 2|w|+2). If all the numbers (1+u)^k (m + j h) on the way are below the overflow threshold and the program starts with numbers, every coefficient is a number.", "quantifier": "f32 and f64, all programs, all initial tensors with any initial errors, every N with 2<=N<2^32, every D with N^(D+1)<2^64, every profile", "why_tests_cant": "error bound over all programs and all floating-point inputs", "anchors": ["src/algebra/mod.rs: multiply, add_mul, sub_mul, commutator", "src/free_tensor/implementation/dense.rs: multiply_and_add_into_impl", "src/coefficients/floating_point_fields.rs: add_inplace, sub_inplace, mul, div, uminus", "src/vector/traits/vector.rs: add_scalar_lmultiply, sub_scalar_lmultiply, add_scalar_rdivide, sub_scalar_rdivide", "src/vector/implementation/simple_dense_vector.rs: from_iterator"]}
{"id": "C116", "title": "Integer programs on floating point tensors are exact", "statement": "If a program as in C111 without divisions is run over f32 or f64, its constants and the coefficients of the initial tensors are integers, and after every command the sizes of all the terms of each stored coefficient of the changed tensor add up to less than 2^24 (2^53), then it does exactly what the same program does on rational numbers: it returns and every coefficient is the exact integer, or it panics, or it accesses memory out of bounds.", "quantifier": "f32 and f64, all programs without divisions, all initial integer tensors, every N with 2<=N<2^32, every D with N^(D+1)<2^64, every profile", "why_tests_cant": "quantifies over all programs and inputs", "anchors": ["src/algebra/mod.rs: multiply, add_mul, sub_mul, commutator", "src/free_tensor/implementation/dense.rs: multiply_and_add_into_impl", "src/coefficients/floating_point_fields.rs: add_inplace, sub_inplace, mul, uminus"]}
{"id": "C117", "title": "Sparse and dense vectors of floats agree", "statement": "Over f32 or f64, keep a sparse and a dense vector with the same coefficients (the sign of a zero aside) and perform the same calls on both, in whatever order the hash maps list their entries: add_inplace and sub_inplace with operands that agree, uminus_inplace, clear, multiplication by finite numbers other than 0 and division by anything but 0 and NaN. All calls return and the vectors still have the same coefficients, NaNs, infinities and overflows included. The excluded calls are characterised exactly: after multiplication by 0 a coefficient agrees iff it was finite; after multiplication by an infinity or NaN and after division by 0 or NaN it agrees iff both vectors stored it or neither did. from_key_scalar and from_iterator with distinct keys build vectors that agree.", "quantifier": "all histories, all keys, all iteration orders, every float including infinities, NaNs and zeros of both signs, f32 and f64", "why_tests_cant": "histories and iteration orders are unbounded; the exceptions are single values of the scalar", "anchors": ["src/vector/implementation/simple_sparse_vector.rs: add_inplace, sub_inplace, uminus_inplace, scalar_lmultiply_inplace, scalar_rdivide_inplace, clear, from_key_scalar, from_iterator", "src/vector/implementation/simple_dense_vector.rs: add_inplace, sub_inplace, uminus_inplace, scalar_lmultiply_inplace, scalar_rdivide_inplace, clear, from_key_scalar, from_iterator"]}
{"id": "C118", "title": "Programs on borrowed tensors", "statement": "Run the commands of C111 on tensors that own their coefficients, borrow them with & or borrow them with &mut. Without clear, how a tensor holds its coefficients never shows: started on tensors with the same coefficients a program ends the same way (returns, panics, undefined behaviour) with the same coefficients, so C111 holds for borrowed tensors too; the in-place products agree as well. With clear this holds if no tensor has a &mut buffer, and fails otherwise, because clear keeps the storage of a &mut buffer and drops that of the others. A variable that no command changes is left as it was. The buffer behind a & borrow is never written. The buffer behind a &mut borrow holds the current coefficients of the tensor until a command first needs more room than the buffer has; from then on it keeps what it held at that moment.", "quantifier": "all programs, all initial tensors of every storage kind, all scalar types and operations, all build profiles", "why_tests_cant": "the programs are unbounded and each of the methods has its own case for each storage kind", "anchors": ["src/vector/implementation/simple_dense_vector.rs: as_slice, as_mut_slice, resize, to_owned_with_size, clear, add_inplace, sub_inplace, get_mut, erase, scalar_lmultiply_inplace", "src/free_tensor/implementation/dense.rs: multiply_and_add_into_impl, multiply_into_impl"]}
{"id": "C119", "title": "Concurrent calls on a shared Hall set", "statement": "Any number of threads call the methods of clones of one HallSetObject, in any interleaving of taking the lock, asking the Hall set and dropping the guard. The calls are linearizable: their results are those of the same calls made one after the other in the order in which they returned, so that a call made after another returned comes after it. What a thread gets back is the result of its own call. A grow_up that has the lock has it alone. There is no deadlock: while calls are open one of their threads can go on, and all open calls can return without further calls. On an object as get_hall_set makes it every query that returns before a grow_up has returned is answered as if it were the only call, the first grow_up to return panics, and every later return is HallSetReadError or HallSetWriteError.", "quantifier": "all interleavings of any number of threads and calls, every Hall set, all build profiles", "why_tests_cant": "interleavings are unbounded; the poisoning depends on who takes the lock first", "anchors": ["src/lie/lie_basis/hall_set.rs: HallSetObject, RwLock"]}
{"id": "C120", "title": "Tensors are evaluated in any algebra", "statement": "Put elements of an associative algebra with unit over the scalars in place of the letters, for example matrices, and so an element of the algebra in place of a tensor: the sum of its coefficients times the products of the elements along the words. The tensor made from a key with a scalar becomes that multiple of the product along its word. If nothing is cut off, multiply becomes the product and commutator the commutator ab - ba of the algebra. If every product of more than D of the elements is zero, every program as in C111 with products up to degree D, without erase, get_mut and additions to single coefficients, does in each variable what the same operations do in the algebra.", "quantifier": "every algebra, every choice of elements, all tensors, all programs, every field of scalars, every N with 2<=N<2^32, every D with N^(D+1)<2^64, every profile", "why_tests_cant": "quantifies over all algebras and all programs", "anchors": ["src/algebra/mod.rs: multiply, add_mul, sub_mul, commutator", "src/free_tensor/implementation/dense.rs: multiply_and_add_into_impl", "src/vector/implementation/simple_dense_vector.rs: from_key_scalar, from_iterator, add_inplace, sub_inplace, uminus_inplace, scalar_lmultiply_inplace, scalar_rdivide_inplace"]}
{"id": "C121", "title": "Code generic in the scalars treats all scalars alike", "statement": "Take two scalar types and a relation between their values that the operations respect: zero, one and minus one are related, and sums, differences, products, negatives and quotients of related values are related. Run the same program as in C111 over both types, with related tensors and constants, of any size, owned or borrowed: both runs return, both panic or both access memory out of bounds, and all coefficients stay related. get answers related values or none, degree answers the same. If == agrees on related values, so does == of tensors, and the in-place products return related tensors; if the numbers made from degrees are related too, so do exp, fmexp and log. In particular a homomorphism of scalars may be applied before or after the program, so dual numbers carry the values of the program along, and a program whose constants and tensors lie in a set that the operations do not leave, such as the integers among the rationals, ends with coefficients in this set.", "quantifier": "all pairs of scalar types and all relations that the operations respect, all programs, all initial tensors of every storage kind and size, every N, all build profiles", "why_tests_cant": "quantifies over all implementations of the scalar trait and all relations between them", "anchors": ["src/algebra/mod.rs: multiply, add_mul, sub_mul, commutator, multiply_inplace, mul_scal_lprod, mul_scal_rprod, mul_rat_ldiv, mul_rat_rdiv", "src/free_tensor/implementation/dense.rs: multiply_and_add_into_impl, multiply_into_impl", "src/vector/implementation/simple_dense_vector.rs: get, get_mut, erase, degree, eq, from_iterator, add_inplace, sub_inplace", "src/vector/traits/vector.rs: add_scalar_lmultiply, sub_scalar_rdivide", "src/free_tensor/mod.rs: exp, fmexp, log"]}
{"id": "C122", "title": "Symmetries of programs on tensors", "statement": "No letter, no scale and no side is special. Relabel the letters of a program as in C111 by an injective map into a possibly larger alphabet: over any scalars, without any law, the relabelled program on relabelled tensors ends the same way (returns, panics, undefined behaviour), every tensor has storage for the same lengths, and every relabelled word has exactly the coefficient of the word, bit for bit for floats, whatever the coefficients of the words with other letters. Over a field, give every letter a weight and multiply every coefficient and every scalar written for a word by the product of the weights of its letters: the program then computes the weighted coefficients. Over a field, reverse all words and exchange the two factors of every product and commutator: the program then computes the reversed tensors.", "quantifier": "all programs, all initial tensors, all relabellings, all weights, every scalar type or field, every N with 2<=N<2^32, every D with N^(D+1)<2^64, all build profiles", "why_tests_cant": "quantifies over all programs; relates runs on different inputs and alphabets", "anchors": ["src/algebra/mod.rs: multiply, add_mul, sub_mul, commutator", "src/free_tensor/implementation/dense.rs: multiply_and_add_into_impl", "src/vector/implementation/simple_dense_vector.rs: from_key_scalar, from_iterator, get_mut, erase, add_inplace, sub_inplace", "src/free_tensor/tensor_basis/tensor_key.rs: from_letters", "src/free_tensor/tensor_basis/mod.rs: key_to_index, start_of_degree"]}
{"id": "C123", "title": "Sparse vectors are generic in their keys and scalars", "statement": "The sparse vector uses keys only through their equality (and hash) and scalars only through the operations of the trait. Take two scalar types, a relation between their values that the operations respect and on which comparisons agree, and an injective renaming of keys into another key type. Any history of calls on a sparse vector, and the same history with renamed keys and related scalars on a related vector, end in the same way (both return or both panic), and every renamed key then has an entry exactly if the key has one, with related scalars, whatever order the hash maps list their entries in and whatever the second vector stores at other keys. new, from key, from key and scalar, from pairs and get are related in the same way; and == answers the same for vectors that store nothing at other keys.", "quantifier": "all key types, all pairs of scalar types, all relations that the operations respect, all injective renamings, all histories, all initial vectors, all iteration orders at every call", "why_tests_cant": "quantifies over all implementations of the key and scalar traits and all relations between them", "anchors": ["src/vector/implementation/simple_sparse_vector.rs: insert_single, clear, get, get_mut, add_inplace, sub_inplace, uminus_inplace, scalar_lmultiply_inplace, scalar_rdivide_inplace, from_iterator, eq", "src/vector/traits/vector.rs: VectorKeyExt"]}
{"id": "C124", "title": "What a coefficient can depend on", "statement": "Information only flows from words to the words that contain them. Take any set of words that contains, with a word, all its factors (contiguous parts), and whose words have at most e letters, e>=1. Run two programs as in C111 that are the same except for scalars and words outside of the set, and except for truncation degrees and sizes above e, on tensors that agree on the set and have storage for the same words of up to e letters: they end in the same way and the results again agree on the set, over any scalars, without any law, bit for bit for floats. In particular truncating all products of a program at e changes no coefficient of a word of up to e letters, and the coefficient of a word depends only on the initial coefficients of the factors of that word.", "quantifier": "all sets of words closed under factors, all pairs of programs, all initial tensors, all truncation degrees, every scalar type, every N with 2<=N<2^32, every D with N^(D+1)<2^64, all build profiles", "why_tests_cant": "relates pairs of runs on different inputs (non-interference); quantifies over all programs", "anchors": ["src/algebra/mod.rs: multiply, add_mul, sub_mul, commutator", "src/free_tensor/implementation/dense.rs: multiply_and_add_into_impl", "src/vector/implementation/simple_dense_vector.rs: from_key_scalar, from_iterator, from_degree, get_mut, erase, add_inplace, sub_inplace", "src/free_tensor/tensor_basis/mod.rs: key_to_index, start_of_degree"]}
{"id": "C125", "title": "Builds with checks and without", "statement": "Compile the crate twice so that the first build has every check (arithmetic overflow, debug assertions) that the second has. Any call of a function of the crate with any arguments, and any program as in C111, either panics in the first build or does in the second exactly what it does in the first: it returns the same value, panics, loops for ever or has undefined behaviour. So switching checks off changes nothing but calls that would have panicked. This holds without any bound on letters, degrees, keys or sizes. In a history of calls on a Hall set the state of the lock after every call is the same too.", "quantifier": "all pairs of build profiles, all functions, all arguments and scalar types, all programs and histories, every N", "why_tests_cant": "relates runs of two builds; quantifies over all calls and programs", "anchors": ["src/free_tensor/tensor_basis/tensor_key.rs: from_letter, from_letters, get_letter, set_letter, push_front, concatenate", "src/free_tensor/tensor_basis/mod.rs: start_of_degree, degree_range, index_to_degree, key_to_index, index_to_key", "src/vector/implementation/simple_dense_vector.rs: from_key, from_iterator, get, get_mut, insert_single, erase", "src/algebra/mod.rs: multiply, multiply_inplace, add_mul, sub_mul, commutator", "src/free_tensor/mod.rs: exp, fmexp, log", "src/lie/lie_basis/hall_set.rs: HallSetObject", "src/lie/lie_basis/degree_range_map.rs: DegreeRangeMap", "src/lie/lie_basis/hall_key.rs: HallKey"]}
{"id": "C126", "title": "Inverses of group-like tensors and paths run backwards", "statement": "Call the antipode of a tensor the tensor whose coefficient of a word w is the coefficient of w reversed, negated if w has odd length. Over any commutative ring, let x be a dense tensor that is group-like (C100) up to degree k. Then for a dense tensor y and a truncation degree t >= k, multiply(x, y, t) is the unit on all words up to length k exactly when y is the antipode of x on these words, and the same holds for multiply(y, x, t); so inverses are unique, two-sided and read off by reversing words. The antipode of a group-like tensor is group-like and its antipode is the tensor itself. The antipode of the value of a Lie expression (C100) is its negative on all words. Over a field, for types whose product is the truncated tensor product, following with fmexp from the unit the negatives of primitive increments in reverse order gives the antipode of following the increments, on all words shorter than MAX_DEGREE.", "quantifier": "every commutative ring (field for paths), alphabet of at least two letters, all degrees d of the tensors and products with n^(d+1) < 2^64, all group-like tensors and all candidates for an inverse, all Lie expressions, all paths, all words", "why_tests_cant": "an equivalence over all tensors; unbounded expressions and paths", "anchors": ["src/algebra/mod.rs: multiply, commutator", "src/free_tensor/implementation/dense.rs: multiply_and_add_into_impl", "src/vector/implementation/simple_dense_vector.rs: from_key, add, sub, uminus, scalar_lmultiply", "src/free_tensor/mod.rs: fmexp"]}
{"id": "C127", "title": "Inverses, divisors of zero and the centre of dense tensors", "statement": "Over any commutative ring and at least two letters, for dense tensors storing all words up to some degree. A tensor x has a tensor y such that both multiply(x, y, k) and multiply(y, x, k) are the unit up to degree k exactly when its constant term is invertible; then x can be cancelled on either side, so y is unique up to degree k. If x has no coefficients on words shorter than u and y none on words shorter than v, the coefficient of the word uv in multiply(x, y, t) is the product of the coefficients of u and v and all shorter words have coefficient zero; likewise for words longer than u and v. So if the ring has no divisors of zero, a product of tensors with non-zero coefficients at u and v has a non-zero coefficient at a word of length at most |u|+|v|, when that is within t. The commutators up to degree t of x with all letters vanish exactly when x has no coefficient on words w with 1 <= |w| < t.", "quantifier": "every commutative ring, alphabet of at least two letters, all dense tensors, all degrees d of the tensors and products with n^(d+1) < 2^64, all words", "why_tests_cant": "equivalences over all tensors and all candidates", "anchors": ["src/algebra/mod.rs: multiply, commutator", "src/free_tensor/implementation/dense.rs: multiply_and_add_into_impl, multiply_into_impl", "src/vector/implementation/simple_dense_vector.rs: from_key", "src/free_tensor/tensor_basis/tensor_key.rs: from_letter"]}
{"id": "C128", "title": "Primitive tensors are exactly the Lie polynomials", "statement": "Over a field (of characteristic 0) and at least two letters, for dense tensors. Replace every word a1 a2 .. ak of the degree-k part of a tensor that is primitive (C100) up to degree k by the bracket [a1, [a2, [.. , ak]]] of letters, computed with from_letter, from_key, scalar_lmultiply, add and commutator up to a degree t >= k: the calls return k times the degree-k part of the tensor (Dynkin, Specht, Wever). In particular this holds for the value of every Lie expression. So a dense tensor storing all words up to a degree d <= t is primitive up to degree t exactly when some expression built from letters by add, sub, uminus, scalar_lmultiply and commutator up to degree t returns a tensor with the same coefficients (Friedrichs), and every value of such an expression is a combination of right-nested brackets of letters whose coefficients are those of the tensor divided by the lengths of the words.", "quantifier": "every field, alphabet of at least two letters, truncation degree with n^(t+1) < 2^64, all dense tensors and Lie expressions, all words, all builds", "why_tests_cant": "an equivalence over all tensors and all expressions", "anchors": ["src/algebra/mod.rs: commutator", "src/free_tensor/implementation/dense.rs: multiply_and_add_into_impl", "src/vector/implementation/simple_dense_vector.rs: from_key, add, sub, uminus, scalar_lmultiply", "src/free_tensor/tensor_basis/tensor_key.rs: from_letter"]}
{"id": "C129", "title": "hall_set_size counts a basis of the Lie polynomials", "statement": "Call a non-empty word Lyndon if it comes before all its other non-empty suffixes in the dictionary, and let its bracket be the letter itself, or the commutator of the brackets of the two words into which it is cut before its first proper suffix. For dense tensors over any commutative ring and at least two letters: the bracket of a Lyndon word l, computed up to a degree t >= |l|, has coefficient 1 at l and 0 at all words of other lengths and at all words before l. The value up to degree t of every expression built from letters by add, sub, uminus, scalar_lmultiply and commutator has the coefficients of one combination of the brackets of the Lyndon words up to length t, and of only one. Two such values with the same coefficients at the Lyndon words up to length t have the same coefficients at all words, and for any choice of scalars for these words there is a value with these coefficients. For d <= 5 and w^d < 2^63, hall_set_size(w, d) returns the number of Lyndon words of length 1..d over w letters, so it is the number of elements of this basis.", "quantifier": "every commutative ring, alphabet of at least two letters, truncation degree with n^(t+1) < 2^64, all Lie expressions, all choices of coefficients, all words, all builds; for hall_set_size all widths w < 2^32 and depths d <= 5 with w^d < 2^63 (beyond depth 5 see C69)", "why_tests_cant": "existence and uniqueness over all expressions and scalars; two unrelated parts of the crate compute the same number", "anchors": ["src/algebra/mod.rs: commutator", "src/free_tensor/implementation/dense.rs: multiply_and_add_into_impl", "src/vector/implementation/simple_dense_vector.rs: from_key, add, sub, uminus, scalar_lmultiply", "src/free_tensor/tensor_basis/tensor_key.rs: from_letter", "src/lie/lie_basis/degree_range_map.rs: hall_set_size"]}
{"id": "C130", "title": "Sums over rotations, and which tensors are sums of commutators", "statement": "Call the rotation sum of a tensor at a word w the sum of its coefficients of the |w| words vu with w = uv and v not empty. For dense tensors over any commutative ring, storing all words up to some degree: multiply(x, y, t) and multiply(y, x, t) have the same rotation sums at all words. If multiply(x', x, t) is the unit up to degree t, then multiply(multiply(x, y, t), x', t) has the rotation sums of y at all words up to length t. A sum of commutators has constant term and rotation sums zero, and the value of a Lie expression (letters, sums, differences, multiples, commutators) has rotation sum zero at all words with two or more letters. Conversely, over a field (of characteristic 0), every tensor of degree at most t whose constant term and rotation sums are zero is the sum of commutator(a, y_a, t) over the letters a for suitable dense tensors y_a, computed with from_letter, from_key, commutator and add.", "quantifier": "every commutative ring (field for the converse), alphabet of at least two letters, all dense tensors, all lists of pairs of tensors, all Lie expressions, all degrees d of the tensors and products with n^(d+1) < 2^64 (for the conjugate: d the sum of the three degrees), all words, all builds", "why_tests_cant": "equalities between runs with exchanged arguments over all tensors; an existence claim over all tensors", "anchors": ["src/algebra/mod.rs: multiply, commutator", "src/free_tensor/implementation/dense.rs: multiply_and_add_into_impl, multiply_into_impl", "src/vector/implementation/simple_dense_vector.rs: from_key, add, sub, uminus, scalar_lmultiply", "src/free_tensor/tensor_basis/tensor_key.rs: from_letter"]}
{"id": "C131", "title": "How deeply index_to_degree recurses", "statement": "Past degree 2, index_to_degree(i) looks for the degree with a function that calls itself, once more for each further degree. In builds with overflow checks at most 61 such calls are ever nested, whatever the alphabet and the index; two letters and i = 2^63 - 1 need all 61 and end in a panic. In every build, an answer d takes exactly d - 2 nested calls, and none if d <= 2. In builds without overflow checks, if the search does not end (C103), no number of nested calls suffices: unless the compiler turns the recursion into a loop the stack overflows. So it is for the index of a key with two letters over 4194304 letters.", "quantifier": "all alphabets N < 2^32, all indices, all builds", "why_tests_cant": "a bound on the depth of recursion over all alphabets and 2^64 indices; an endless recursion cannot be observed", "anchors": ["src/free_tensor/tensor_basis/mod.rs: index_to_degree, index_to_degree_impl, start_of_degree"]}
