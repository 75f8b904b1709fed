# Formal model of rustyalgebra in Coq 8.16.1 — design

## How the code is modelled

* One Gallina definition per Rust function, each with the file and lines of `/repo` in a comment.  Where a
  definition simplifies, its comment says so.
* `outcome A := Ret a | Panic | UB | Diverge` (Machine.v).  A panic, an access outside a slice through
  `get_unchecked` or a raw pointer, and a call that does not return are values of their own, never a default
  result.  Nothing is said about what happens after `UB`: it ends the run.
* Arithmetic takes the build `profile` (two booleans: overflow checks, debug assertions).  With overflow checks an
  overflow is `Panic`; without them it wraps modulo 2^32 or 2^64.  Theorems quantify over all four profiles, so
  "no overflow" is a result and not an assumption.
* `u32`, `u64`, `usize` are values of `N`.  `usize` has 64 bits: only 64-bit targets are modelled.
* Scalars are a record of operations (`scalar_ops`, M_Scalar.v) without any law.  Theorems without a hypothesis
  `ring_laws` or `field_laws` hold for floats as well, with the operations in the order in which the code does them.
  The records of laws (S_Vector.v) are met by the canonical rationals of the standard library (I_Scalars.v).
* `f32` and `f64` are the formats (24, 128) and (53, 1024) of the standard library's `Coq.Floats.SpecFloat`.  There
  is one NaN: results that differ only in the sign or payload of a NaN are identified.
* A dense vector is a list with a storage tag (Owned, Borrowed, BorrowedMut) and a ghost copy of the lender's buffer.
* A hash map is a std++ `gmap`; wherever the code iterates over one, the order is an arbitrary function from maps to
  permutations of their entries.
* `&mut` functions return the new value.  `get_mut` returns the function that writes through the reference.  The
  closures the crate passes to products are pure and are modelled as functions; M_AlgebraFn.v models the products
  with arbitrary closures, with state and panics.  `impl Into` and `Borrow` are the identity.
* Recursion without a bound known in advance (degree_range_map.rs, Display) takes a number of nested calls as fuel
  and answers `Diverge` when it is used up.  A call *returns a* if the model returns `a` for all large fuel, and
  *never ends* if the model answers `Diverge` for every fuel.
* get_hall_set is a transition system with any number of threads, a shared RwLock and a shared map (M_HallSet.v); so
  are the methods of HallSetObject (M_HallLock.v).
  Read guards exclude writers, write guards exclude everybody.  In edition 2018 the temporary of an `if let`
  scrutinee lives to the end of the `else` branch, so the read guard is held there.  Both documented behaviours of
  `write()` under the thread's own read guard, blocking and panicking, are transitions.

## What is modelled

| source file | model | what |
|---|---|---|
| src/implementation.rs | M_TensorKey.v, M_HallKey.v | const_logn, make_mask |
| src/free_tensor/tensor_basis/tensor_key.rs | M_TensorKey.v | all functions, iterator, Debug, Display, comparison |
| src/free_tensor/tensor_basis/mod.rs, key_iterator.rs | M_TensorBasis.v | all functions and the basis iterator |
| src/basis/mod.rs | M_Vector.v | the traits, as a record of functions |
| src/coefficients/mod.rs, floating_point_fields.rs | M_Scalar.v, M_Float.v | CoefficientField, f32, f64 |
| src/vector/traits/vector.rs, extension.rs, degree_vector.rs | M_Vector.v | required methods as a record; all default methods; VectorKeyExt |
| src/vector/implementation/simple_dense_vector.rs | M_Dense.v, M_Display.v | all methods, PartialEq, Clone, Display |
| src/vector/implementation/simple_sparse_vector.rs | M_Sparse.v | all methods, PartialEq, IntoIterator |
| src/vector/implementation/deref_impl.rs | M_Deref.v | all delegating methods, for the wrapper DenseTensor |
| src/vector/traits/dense_vector.rs | M_Dense.v, M_Slices.v | as_slice, as_mut_slice, get_slice, get_mut_slice, resize |
| src/algebra/mod.rs | M_Algebra.v | all default methods |
| src/free_tensor/implementation/dense.rs | M_Algebra.v, M_AlgebraFn.v, M_Deref.v | lines 16-92 and 257-420: the tensor products, the wrapper type |
| src/free_tensor/mod.rs | M_FreeTensor.v | exp, fmexp, log |
| src/lie/lie_basis/degree_range_map.rs | M_DegreeRange.v, M_Errors.v | all functions |
| src/lie/lie_basis/hall_key.rs | M_HallKey.v, M_HallSet.v | all functions |
| src/lie/lie_basis/hall_set.rs | M_HallSet.v, M_HallLock.v, M_Errors.v | HallSetInner, HallSetObject, get_hall_set, HallSetError |
| the crate's `#[test]` functions | T_UnitTests*.v | run in the model, as a check of the model |

The files E_*.v take property theorems at concrete arguments and prove every hypothesis there, so that no theorem with
hypotheses is empty.

## What is not modelled

* Allocation failure, the real size of the stack, time, lifetimes and borrow checking, and whether the crate compiles.
* Bits of NaN.
* `HallSetInner.reverse` (written, never read); Debug of errors with the flag `#`.
* dense.rs:95-255 and other commented-out code; `src/vector/wrapper.rs`, which is not in the module tree;
  the unimplemented trait CrossTypeVectorExt; the traits of iteration.rs,
  as_vec.rs and sparse_vector.rs and free_tensor/conversions.rs, which contain no computation.
* No type of the crate implements FreeTensor.  Its default methods are modelled for every implementing type and for
  the dense tensors of the crate, with MAX_DEGREE as a parameter.

## Trusted base

* Coq's kernel, version 8.16.1, with the standard library and std++.
* `Print Assumptions` stands below every theorem of every P_*.v file and answers "Closed under the global context"
  for all of them.  No axiom is used, of the standard library or any other.
* `Coq.Floats.SpecFloat` as the definition of IEEE 754 arithmetic.  It is a definition, not an axiom.
* The model: that each definition says what the cited lines do.  The crate's own unit tests are run in the model.
* The specifications in the S_*.v files.  Of the model they use only types, field access and public API calls; S_Recursion.v, which
  counts nested calls, also uses the private function whose calls it counts.

## Files of the Coq development

`Machine.v` (outcomes, machine arithmetic, slices), `M_*.v` (model), `S_*.v` (specifications), `I_*.v` (instances; I_Matrix.v and I_Dual.v for examples only),
`L_*.v` (lemmas), `L_PropX.v` (property lemmas with an `Example` for each property that meets its hypotheses),
`P_X.v` (the property theorems `CNN_...`, nothing else, generated from L_PropX.v by tools/gen_props.py),
`T_*.v` (unit tests).  properties.jsonl and MANIFEST.json are written by tools/props.py and tools/manifest.py.

## Refuted properties

Some properties are what a user relies on but not what the code does.  For those a theorem `..._refuted` exhibits the
violation, a theorem `..._partial` keeps what is true, and a property of its own describes exactly what the code does
instead.  The manifest lists them as `partial` with REFUTED in the note.

## Tests against wrong programs

seeded/mutations.py lists edits of the model such as a bug would make, each with the claims it falsifies.
seeded/mutate.py applies one in a scratch copy, rebuilds everything that depends on it, replaces each proof that
fails by `Admitted` and asks `Print Assumptions` which property theorems lost their proof.  A claim that is falsified
while all its theorems survive is a theorem that is too weak.  Results and consequences are in seeded/LOG.jsonl.

<!-- generated by tools/design.py: do not edit below -->

## Per property

| property files | model | how proved |
|---|---|---|
| L_PropKey.v, P_Key.v | M_TensorKey.v | a key is the pair (length, base-2^b number of its letters minus one); bit masks and shifts become division and remainder; induction on the word |
| L_PropBasis.v, P_Basis.v | M_TensorBasis.v | bijective base-N numeration of words (S_Words.v), geometric sums, the degree search as a loop with invariant; iterators by induction on the number of steps |
| L_PropDense.v, P_Dense.v | M_Dense.v, M_Vector.v | each operation is characterised by what is read at every index; the default methods are unfolded for every implementation |
| L_PropHistory.v, P_History.v | M_Dense.v, M_Vector.v, M_Deref.v | induction on the history of operations; a simulation between the storage kinds; refinement to coefficient functions |
| L_PropSafe.v, P_Safe.v | M_Dense.v, M_TensorBasis.v, M_Display.v | exact condition under which an unchecked write is out of range; witnesses for every alphabet |
| L_PropAlgebra.v, P_Algebra.v | M_Algebra.v | invariants of the two nested loops over degrees and of the two loops over buffers; sums of terms in the order of the additions; over a ring the sum is the convolution of words |
| L_PropProducts.v, P_Products.v | M_Algebra.v | vectors are determined by the coefficients of words; convolution laws (L_Conv.v) |
| L_PropInplace.v, P_Inplace.v | M_Algebra.v | case analysis of the rounds of the outer loop, from the highest degree down |
| L_PropWrap.v, P_Wrap.v | M_Algebra.v, M_FreeTensor.v | the same rounds when the degree of the left factor wraps |
| L_PropFreeTensor.v, P_FreeTensor.v | M_FreeTensor.v | induction on the countdown loop; power series over an arbitrary exact algebra (S_FreeTensor.v, S_Series.v) |
| L_PropSparse.v, P_Sparse.v | M_Sparse.v | gmap; induction over any permutation of the entries |
| L_PropHallSize.v, P_HallSize.v | M_DegreeRange.v | strong induction on the recursion; "returns" is agreement for all large fuel, "never ends" is Diverge for every fuel; Moebius function specified by prime factors (S_Hall.v) |
| L_PropHall.v, P_Hall.v | M_HallKey.v, M_HallSet.v | bit fields; invariants of histories of calls; invariant of the transition system of the cache over all schedules |
| L_PropRound.v, P_Round.v | M_Float.v, M_Dense.v, M_Algebra.v | the position of the exact value between two neighbouring floats is an invariant of the shifts of SpecFloat; induction on the number of terms for accumulated errors |
| L_PropSlices.v, P_Slices.v | M_Slices.v, M_Dense.v | case analysis of the kinds of index; positions of words |
| L_PropClosures.v, P_Closures.v | M_AlgebraFn.v | the list of calls made is threaded through the four nested loops; composition of runs of the closure; simulation of the model with pure closures |
| L_PropExp.v, P_Exp.v | M_FreeTensor.v | divided powers and the binomial theorem for commuting elements of the convolution algebra, up to a degree (L_ExpGroup.v) |
| L_PropFloatEq.v, P_FloatEq.v | M_Float.v, M_Dense.v, M_Sparse.v | a float is determined by its value up to the sign of 0: the exponent is a function of value and digits |
| L_PropSparseDense.v, P_SparseDense.v | M_Sparse.v, M_Dense.v, M_Vector.v, M_Float.v | both histories are simulated call by call (L_PropSparseHist.v, L_PropHistory.v); case analysis on zeros |
| L_PropHallLock.v, P_HallLock.v | M_HallLock.v, M_HallSet.v | invariants of a transition system with any number of threads: guards saw the current poison flag, a write guard is alone; the return of a call is its linearization point; induction on executions |
| L_PropParam.v, P_Param.v | M_Dense.v, M_Algebra.v, M_FreeTensor.v, S_TensorProg.v, S_Param.v | a logical relation between two runs over different scalars, method by method, and induction on the program |
| L_PropSymmetry.v, P_Symmetry.v | M_Dense.v, M_Algebra.v, S_TensorProg.v, S_ProgSteps.v, S_Symmetry.v | relations between the meanings of a program and of the changed program (C111, C114), by induction on the program |
| L_PropParamSparse.v, P_ParamSparse.v | M_Sparse.v, M_Vector.v, S_SparseHist.v, S_ParamSparse.v | the relation is kept by every step of the machine of C95; equality of hash maps from the entry at every key |
| L_PropLocal.v, P_Local.v | M_Dense.v, M_Algebra.v, S_TensorProg.v, S_ProgSteps.v, S_Local.v | the relation is kept by every step of the machine of C114; induction on the program |
| L_PropBuilds.v, P_Builds.v | all model files that take a profile | one rule per primitive and per way of composing calls (sequence, loop, recursion); every function of the model by these rules (L_Builds.v) |
| L_PropAntipode.v, P_Antipode.v | M_Dense.v, M_Algebra.v, M_FreeTensor.v | an alternating sum of shuffle sums that telescopes to zero (L_Antipode.v); cancellation of a tensor with constant term 1 by induction on the word; C102 for the path |
| L_PropUnits.v, P_Units.v | M_Dense.v, M_Algebra.v | a geometric series built one degree at a time; a product with a single non-zero term; a shortest word found among finitely many; products with a letter on one side and on the other (L_Units.v) |
| L_PropDynkin.v, P_Dynkin.v | M_Dense.v, M_Algebra.v | the value of a Lie expression as a function on words; the operator of right-nested brackets is k times the identity on primitive functions, by an alternating sum over cuts of a word (L_Dynkin.v) |
| L_PropLyndon.v, P_Lyndon.v | M_Dense.v, M_Algebra.v, M_DegreeRange.v | triangularity of Lyndon brackets; the bracket of two of them rewritten by the Jacobi identity, by induction on the length, on the words that come after, and on the length of the left factor (L_LyndonLie.v); every word is a rotation of a power of one Lyndon word, which counts them (L_LyndonCount.v) |
| L_PropRotation.v, P_Rotation.v | M_Dense.v, M_Algebra.v | the sum over rotations of a product, cut by cut, is the same sum with the cut turned to the front; the converse by summation by parts along the rotations of a word (L_Rotation.v) |
| L_PropRecursion.v, P_Recursion.v | M_TensorBasis.v | a relation that counts the calls; induction on the distance to degree 64, where the first power of the alphabet size overflows; induction on the calls |
| L_PropEval.v, P_Eval.v | M_Dense.v, M_Algebra.v, S_TensorProg.v, S_Eval.v | evaluation degree by degree: the product rule by induction on the degree, one letter at a time; a sum over a triangle; induction on the program |
| L_PropBorrow.v, P_Borrow.v | M_Dense.v, M_Algebra.v, S_TensorProg.v | a relation between two runs on vectors with equal elements; one lemma per method on what it does to kind, buffer and size; induction on the program |
| L_PropSparseHist.v, P_SparseHist.v | M_Sparse.v, M_Vector.v | one simulation step per method; induction on the history |
| L_PropErrors.v, P_Errors.v | M_Errors.v | mutual induction on nested errors; C76 for the histories |
| L_PropShuffle.v, P_Shuffle.v | M_Algebra.v, M_FreeTensor.v | shuffle sums of a product are sums over pairs of cuts (L_Shuffle.v); divided powers of a primitive element (L_ShuffleExp.v) |
| L_PropDegree.v, P_Degree.v | M_TensorBasis.v, M_Dense.v, M_Algebra.v | numerator and denominator as residues modulo 2^64; the first boundary above the index; the first division by zero |
| L_PropAlgebraTrait.v, P_AlgebraTrait.v | M_AlgebraTrait.v | the closures of the defaults are additive, so they can be pulled out of the sums; the dense methods agree by computation |
| L_PropIterKeys.v, P_IterKeys.v | M_TensorBasis.v | invariant of the keys in the iterator: the code before the last letter is alternating modulo the letter width; a potential (length, data) grows with every call; the orbits of length three are finite and checked for every width by computation (L_IterKeys.v) |
| L_PropCommFloat.v, P_CommFloat.v | M_Algebra.v, M_Float.v | one fold over the terms of both products (C29), then the error of a sum of rounded products as in C85 |
| L_PropProgFloat.v, P_ProgFloat.v | M_Vector.v, M_Dense.v, M_Algebra.v, M_Float.v | programs refine the scalar operations of S_ProgSteps.v (L_ProgSteps.v); each command keeps a relation between a float and the results of three programs on rational numbers - exact values, sizes, largest sizes - proved once for any relation closed under the scalar operations (L_ProgRel.v) and used with the error bound (L_ProgError.v) and with integers (L_ProgInt.v) |
| L_PropTensorProg.v, P_TensorProg.v | M_Vector.v, M_Dense.v, M_Algebra.v | each command keeps the relation between variables and coefficient functions (mul_add_ok and mul_add_UB of L_Algebra.v for products, the calls of C26 for the rest); induction over the program |
| L_PropKeyIndex.v, P_KeyIndex.v | M_TensorBasis.v, M_Dense.v | induction over the letters read so far, for reads and sums that overflow as well; then C58 |
| L_PropSizeField.v, P_SizeField.v | M_TensorKey.v | the functions depend on the alphabet through letter_bits(N) only, which has 32 values |
| L_PropNextKey.v, P_NextKey.v | M_TensorBasis.v | after i letters N the iterator has cleared the last i-1+b bits of the data and no others, so the letters are still read correctly; then arithmetic (L_NextKey.v) |
| L_PropIndexKey.v, P_IndexKey.v | M_TensorBasis.v | induction over the letters pushed so far; a cut key is the key of the word with a shortened first letter (L_IndexKey.v) |
| L_PropKeyRaw.v, P_KeyRaw.v | M_TensorKey.v | masks and shifts cut at 64 bits, as division and remainder, in builds with and without overflow checks (L_KeyRaw.v) |
| L_PropFloat.v, P_Float.v | M_Float.v | rounding lemmas about Coq.Floats.SpecFloat proved by integer arithmetic |

| id | property | theorems in | status |
|---|---|---|---|
| C01 | A tensor key remembers exactly the word it was built from | P_Key.v | proved |
| C02 | Tensor keys are equal exactly when their words are equal | P_Key.v | proved |
| C03 | concatenate is concatenation of words | P_Key.v | partial (refuted as stated) |
| C04 | push_front prepends one letter | P_Key.v | proved |
| C05 | max_depth is a sound and enforced bound | P_Key.v | proved |
| C06 | to_letters gives back the letters passed to from_letters | P_Key.v | partial (refuted as stated) |
| C07 | Every key obtainable through the safe public API denotes a word over the alphabet within max_depth | P_Key.v | partial (refuted as stated) |
| C08 | Keys can be printed | P_Key.v | partial (refuted as stated) |
| C09 | key_to_index and index_to_key are mutually inverse | P_Basis.v | proved |
| C10 | The index of a key is its position in the length-then-lexicographic enumeration | P_Basis.v | proved |
| C11 | start_of_degree counts the words of smaller degree | P_Basis.v | proved |
| C12 | index_to_degree is the length of the word at that index | P_Basis.v | proved |
| C13 | The dimension reserved for a key always contains the key | P_Basis.v | proved |
| C14 | compare orders keys the way indices do | P_Basis.v | partial (refuted as stated) |
| C15 | iter_keys enumerates the basis in index order | P_Basis.v | partial (refuted as stated) |
| C16 | from_key and from_key_scalar build the expected single-term dense vector | P_Dense.v | proved |
| C17 | Dense from_iterator sums repeated keys in the order given | P_Dense.v | proved |
| C18 | Dense addition and subtraction are coefficientwise whatever the sizes | P_Dense.v | proved |
| C19 | Dense negation, scalar multiplication and scalar division are coefficientwise | P_Dense.v | proved |
| C20 | Fused multiply-add/divide-add equal their two-step forms | P_Dense.v | proved |
| C21 | erase, clear, swap and to_owned behave like on a map | P_Dense.v | proved |
| C22 | Inserting a coefficient makes it readable | P_Dense.v | partial (refuted as stated) |
| C23 | VectorKeyExt adds or subtracts a multiple of a basis element | P_Dense.v | partial (refuted as stated) |
| C24 | Equality of dense vectors is equality of coefficients | P_Dense.v | partial (refuted as stated) |
| C25 | Storage kind is invisible and borrowed data is protected | P_History.v | partial (refuted as stated) |
| C26 | Dense vectors refine coefficient maps along every history | P_History.v | proved |
| C27 | Vector-space laws | P_History.v | proved |
| C28 | DenseTensor behaves like the vector it wraps | P_History.v | partial (refuted as stated) |
| C29 | multiply/add_mul/sub_mul compute the truncated tensor product | P_Algebra.v | proved |
| C30 | multiply never touches memory out of bounds | P_Algebra.v | partial (refuted as stated) |
| C31 | The product of two basis elements is the basis element of the concatenated word | P_Products.v | proved |
| C32 | Tensor multiplication is an associative bilinear unital product | P_Products.v | proved |
| C33 | The commutator is a Lie bracket | P_Products.v | proved |
| C34 | Omitting to_degree is reported | P_Products.v | partial (refuted as stated) |
| C35 | multiply_inplace equals multiply | P_Inplace.v | partial (refuted as stated) |
| C36 | Scaled in-place products scale as documented by their names | P_Inplace.v | partial (refuted as stated) |
| C37 | exp is the truncated exponential | P_FreeTensor.v | partial (refuted as stated) |
| C38 | log is the truncated logarithm | P_FreeTensor.v | partial (refuted as stated) |
| C39 | fmexp multiplies by the exponential | P_FreeTensor.v | partial (refuted as stated) |
| C40 | Sparse vectors behave like maps | P_Sparse.v | proved |
| C41 | Sparse addition and subtraction are coefficientwise and independent of hash order | P_Sparse.v | proved |
| C42 | Sparse arithmetic does not store ZERO coefficients | P_Sparse.v | proved |
| C43 | Every Vector operation is available on sparse vectors | P_Sparse.v | partial (refuted as stated) |
| C44 | Sparse and dense vectors agree | P_Sparse.v | partial (refuted as stated) |
| C45 | The Moebius function used for Hall set sizes is correct and terminates | P_HallSize.v | partial (refuted as stated) |
| C46 | hall_set_size is the dimension of the free Lie algebra up to a depth | P_HallSize.v | partial (refuted as stated) |
| C47 | DegreeRangeMap grows monotonically and answers consistently | P_HallSize.v | proved |
| C48 | find_deg returns the degree of a Hall key | P_HallSize.v | partial (refuted as stated) |
| C49 | HallKey packs and unpacks its fields | P_Hall.v | partial (refuted as stated) |
| C50 | A Hall set can be created for every alphabet and knows its letters | P_Hall.v | partial (refuted as stated) |
| C51 | get_hall_set returns under every schedule | P_Hall.v | partial (refuted as stated) |
| C52 | A failed grow_up does not disable a shared Hall set | P_Hall.v | partial (refuted as stated) |
| C53 | f32/f64 scalars | P_Float.v | partial (refuted as stated) |
| C54 | Exactly when concatenate gives the concatenated word | P_Key.v | proved |
| C55 | to_letters lists the letters from last to first | P_Key.v | proved |
| C56 | What compare computes | P_Basis.v | proved |
| C57 | How far iter_keys can be trusted | P_Basis.v | proved |
| C58 | Building a dense vector from keys never writes outside the new buffer | P_Safe.v | partial (refuted as stated) |
| C59 | degree() is the length of the longest stored word | P_Safe.v | proved |
| C60 | Dense vectors can be printed | P_Safe.v | partial (refuted as stated) |
| C61 | Products without a truncation degree never return a result | P_Products.v | proved |
| C62 | Exactly when the out-of-place products are memory safe | P_Algebra.v | proved |
| C63 | What the in-place products do | P_Inplace.v | proved |
| C64 | What exp, log and fmexp do on dense tensors | P_FreeTensor.v | proved |
| C65 | The loops of exp, fmexp and log over an exact algebra | P_FreeTensor.v | proved |
| C66 | VectorKeyExt on sparse vectors | P_Sparse.v | proved |
| C67 | Exactly which operations of sparse vectors are available | P_Sparse.v | proved |
| C68 | Exactly what is_squarefree and mobius do | P_HallSize.v | proved |
| C69 | Exactly when hall_set_size returns | P_HallSize.v | proved |
| C70 | When DegreeRangeMap::new and grow return | P_HallSize.v | proved |
| C71 | Exactly what find_deg returns | P_HallSize.v | proved |
| C72 | HallKey::from_letter and to_index for every letter | P_Hall.v | proved |
| C73 | How Hall keys are printed | P_Hall.v | proved |
| C74 | Everything a new Hall set answers | P_Hall.v | proved |
| C75 | What get_hall_set does instead of returning | P_Hall.v | proved |
| C76 | Every history of calls on a shared Hall set | P_Hall.v | proved |
| C77 | HallKey::lparent and parent | P_Hall.v | proved |
| C78 | from_degree rounds to a nearest floating point number | P_Float.v | proved |
| C79 | Which ring laws f32 and f64 have | P_Float.v | proved |
| C80 | Adding and subtracting dense vectors of floats | P_Float.v | proved |
| C81 | Integer tensors in floating point are multiplied exactly | P_Float.v | proved |
| C82 | The in-place products by a tensor of degree at least 1, in every build | P_Wrap.v | proved |
| C83 | What exp and fmexp do on tensors of degree at least 1, in every build | P_Wrap.v | proved |
| C84 | f32 and f64 scalars and dense vectors over them are correctly rounded | P_Round.v | proved |
| C85 | Accuracy of products of floating point tensors | P_Round.v | proved |
| C86 | Conversions from small integers and from_rational | P_Round.v | proved |
| C87 | get_slice reads exactly the named positions | P_Slices.v | proved |
| C88 | get_mut_slice: copy on write and writes through | P_Slices.v | proved |
| C89 | from_degree of a dense tensor | P_Slices.v | proved |
| C90 | The closure passed to a product: its calls and where its results go | P_Closures.v | proved |
| C91 | Products with pure closures | P_Closures.v | proved |
| C92 | exp and fmexp with commuting arguments | P_Exp.v | proved |
| C93 | Equality of floats and of vectors of floats | P_FloatEq.v | proved |
| C94 | Sparse vectors of floats are correctly rounded | P_FloatEq.v | proved |
| C95 | Every history of calls on a sparse vector | P_SparseHist.v | proved |
| C96 | How many scalar products a tensor product computes | P_Closures.v | proved |
| C97 | Texts of the errors of Hall sets | P_Errors.v | proved |
| C98 | The text of an error identifies it | P_Errors.v | partial (refuted as stated) |
| C99 | The chain of causes of an error | P_Errors.v | partial (refuted as stated) |
| C100 | Lie polynomials are primitive and products of group-like tensors are group-like | P_Shuffle.v | proved |
| C101 | Exponentials of primitive tensors are group-like below MAX_DEGREE | P_Shuffle.v | proved |
| C102 | Signatures of piecewise linear paths | P_Shuffle.v | proved |
| C103 | Sizes of degrees in builds without overflow checks | P_Degree.v | proved |
| C104 | Dense tensors over alphabets with at most one letter | P_Degree.v | proved |
| C105 | Key operations with arguments of any value | P_KeyRaw.v | proved |
| C106 | The default methods of Algebra for every implementing type | P_AlgebraTrait.v | proved |
| C107 | index_to_key for every index | P_IndexKey.v | proved |
| C108 | What iter_keys enumerates | P_IterKeys.v | proved |
| C109 | Exactly when the basis iterator goes to the next word | P_NextKey.v | proved |
| C110 | Commutators of floating point tensors | P_CommFloat.v | proved |
| C111 | Every program on dense tensors computes in the truncated tensor algebra | P_TensorProg.v | proved |
| C112 | The index and the dimension of any key | P_KeyIndex.v | proved |
| C113 | The bits set aside for the length of a key | P_SizeField.v | proved |
| C114 | Which scalar operations a program on dense tensors performs | P_ProgFloat.v | proved |
| C115 | Rounding errors of every program on floating point tensors | P_ProgFloat.v | proved |
| C116 | Integer programs on floating point tensors are exact | P_ProgFloat.v | proved |
| C117 | Sparse and dense vectors of floats agree | P_SparseDense.v | proved |
| C118 | Programs on borrowed tensors | P_Borrow.v | proved |
| C119 | Concurrent calls on a shared Hall set | P_HallLock.v | proved |
| C120 | Tensors are evaluated in any algebra | P_Eval.v | proved |
| C121 | Code generic in the scalars treats all scalars alike | P_Param.v | proved |
| C122 | Symmetries of programs on tensors | P_Symmetry.v | proved |
| C123 | Sparse vectors are generic in their keys and scalars | P_ParamSparse.v | proved |
| C124 | What a coefficient can depend on | P_Local.v | proved |
| C125 | Builds with checks and without | P_Builds.v | proved |
| C126 | Inverses of group-like tensors and paths run backwards | P_Antipode.v | proved |
| C127 | Inverses, divisors of zero and the centre of dense tensors | P_Units.v | proved |
| C128 | Primitive tensors are exactly the Lie polynomials | P_Dynkin.v | proved |
| C129 | hall_set_size counts a basis of the Lie polynomials | P_Lyndon.v | proved |
| C130 | Sums over rotations, and which tensors are sums of commutators | P_Rotation.v | proved |
| C131 | How deeply index_to_degree recurses | P_Recursion.v | proved |
