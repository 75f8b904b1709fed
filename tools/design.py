"""Rewrites the tables at the end of DESIGN.md (everything after the marker line)."""
import re, json, glob, os
root = os.path.join(os.path.dirname(os.path.abspath(__file__)), '..')
MARK = '<!-- generated by tools/design.py: do not edit below -->'
# property file -> (model files, how the properties are proved)
HOW = {
 'Key': ('M_TensorKey.v', 'a key is the pair (length, base-2^b number of its letters minus one); bit masks and shifts become division and remainder; induction on the word'),
 'Basis': ('M_TensorBasis.v', 'bijective base-N numeration of words (S_Words.v), geometric sums, the degree search as a loop with invariant; iterators by induction on the number of steps'),
 'Dense': ('M_Dense.v, M_Vector.v', 'each operation is characterised by what is read at every index; the default methods are unfolded for every implementation'),
 'History': ('M_Dense.v, M_Vector.v, M_Deref.v', 'induction on the history of operations; a simulation between the storage kinds; refinement to coefficient functions'),
 'Safe': ('M_Dense.v, M_TensorBasis.v, M_Display.v', 'exact condition under which an unchecked write is out of range; witnesses for every alphabet'),
 'Algebra': ('M_Algebra.v', 'invariants of the two nested loops over degrees and of the two loops over buffers; sums of terms in the order of the additions; over a ring the sum is the convolution of words'),
 'Products': ('M_Algebra.v', 'vectors are determined by the coefficients of words; convolution laws (L_Conv.v)'),
 'Inplace': ('M_Algebra.v', 'case analysis of the rounds of the outer loop, from the highest degree down'),
 'Wrap': ('M_Algebra.v, M_FreeTensor.v', 'the same rounds when the degree of the left factor wraps'),
 'FreeTensor': ('M_FreeTensor.v', 'induction on the countdown loop; power series over an arbitrary exact algebra (S_FreeTensor.v, S_Series.v)'),
 'Sparse': ('M_Sparse.v', 'gmap; induction over any permutation of the entries'),
 'HallSize': ('M_DegreeRange.v', 'strong induction on the recursion; "returns" is agreement for all large fuel, "never ends" is Diverge for every fuel; Moebius function specified by prime factors (S_Hall.v)'),
 'Hall': ('M_HallKey.v, M_HallSet.v', 'bit fields; invariants of histories of calls; invariant of the transition system of the cache over all schedules'),
 'Round': ('M_Float.v, M_Dense.v, M_Algebra.v', 'the position of the exact value between two neighbouring floats is an invariant of the shifts of SpecFloat; induction on the number of terms for accumulated errors'),
 'Slices': ('M_Slices.v, M_Dense.v', 'case analysis of the kinds of index; positions of words'),
 'Closures': ('M_AlgebraFn.v', 'the list of calls made is threaded through the four nested loops; composition of runs of the closure; simulation of the model with pure closures'),
 'Exp': ('M_FreeTensor.v', 'divided powers and the binomial theorem for commuting elements of the convolution algebra, up to a degree (L_ExpGroup.v)'),
 'FloatEq': ('M_Float.v, M_Dense.v, M_Sparse.v', 'a float is determined by its value up to the sign of 0: the exponent is a function of value and digits'),
 'SparseDense': ('M_Sparse.v, M_Dense.v, M_Vector.v, M_Float.v', 'both histories are simulated call by call (L_PropSparseHist.v, L_PropHistory.v); case analysis on zeros'),
 'HallLock': ('M_HallLock.v, M_HallSet.v', 'invariants of a transition system with any number of threads: guards saw the current poison flag, a write guard is alone; the return of a call is its linearization point; induction on executions'),
 'Param': ('M_Dense.v, M_Algebra.v, M_FreeTensor.v, S_TensorProg.v, S_Param.v', 'a logical relation between two runs over different scalars, method by method, and induction on the program'),
 'Symmetry': ('M_Dense.v, M_Algebra.v, S_TensorProg.v, S_ProgSteps.v, S_Symmetry.v', 'relations between the meanings of a program and of the changed program (C111, C114), by induction on the program'),
 'ParamSparse': ('M_Sparse.v, M_Vector.v, S_SparseHist.v, S_ParamSparse.v', 'the relation is kept by every step of the machine of C95; equality of hash maps from the entry at every key'),
 'Local': ('M_Dense.v, M_Algebra.v, S_TensorProg.v, S_ProgSteps.v, S_Local.v', 'the relation is kept by every step of the machine of C114; induction on the program'),
 'Builds': ('all model files that take a profile', 'one rule per primitive and per way of composing calls (sequence, loop, recursion); every function of the model by these rules (L_Builds.v)'),
 'Antipode': ('M_Dense.v, M_Algebra.v, M_FreeTensor.v', 'an alternating sum of shuffle sums that telescopes to zero (L_Antipode.v); cancellation of a tensor with constant term 1 by induction on the word; C102 for the path'),
 'Units': ('M_Dense.v, M_Algebra.v', 'a geometric series built one degree at a time; a product with a single non-zero term; a shortest word found among finitely many; products with a letter on one side and on the other (L_Units.v)'),
 'Dynkin': ('M_Dense.v, M_Algebra.v', 'the value of a Lie expression as a function on words; the operator of right-nested brackets is k times the identity on primitive functions, by an alternating sum over cuts of a word (L_Dynkin.v)'),
 'Lyndon': ('M_Dense.v, M_Algebra.v, M_DegreeRange.v', 'triangularity of Lyndon brackets; the bracket of two of them rewritten by the Jacobi identity, by induction on the length, on the words that come after, and on the length of the left factor (L_LyndonLie.v); every word is a rotation of a power of one Lyndon word, which counts them (L_LyndonCount.v)'),
 'Rotation': ('M_Dense.v, M_Algebra.v', 'the sum over rotations of a product, cut by cut, is the same sum with the cut turned to the front; the converse by summation by parts along the rotations of a word (L_Rotation.v)'),
 'Recursion': ('M_TensorBasis.v', 'a relation that counts the calls; induction on the distance to degree 64, where the first power of the alphabet size overflows; induction on the calls'),
 'Eval': ('M_Dense.v, M_Algebra.v, S_TensorProg.v, S_Eval.v', 'evaluation degree by degree: the product rule by induction on the degree, one letter at a time; a sum over a triangle; induction on the program'),
 'Borrow': ('M_Dense.v, M_Algebra.v, S_TensorProg.v', 'a relation between two runs on vectors with equal elements; one lemma per method on what it does to kind, buffer and size; induction on the program'),
 'SparseHist': ('M_Sparse.v, M_Vector.v', 'one simulation step per method; induction on the history'),
 'Errors': ('M_Errors.v', 'mutual induction on nested errors; C76 for the histories'),
 'Shuffle': ('M_Algebra.v, M_FreeTensor.v', 'shuffle sums of a product are sums over pairs of cuts (L_Shuffle.v); divided powers of a primitive element (L_ShuffleExp.v)'),
 'Degree': ('M_TensorBasis.v, M_Dense.v, M_Algebra.v', 'numerator and denominator as residues modulo 2^64; the first boundary above the index; the first division by zero'),
 'AlgebraTrait': ('M_AlgebraTrait.v', 'the closures of the defaults are additive, so they can be pulled out of the sums; the dense methods agree by computation'),
 'IterKeys': ('M_TensorBasis.v', 'invariant of the keys in the iterator: the code before the last letter is alternating modulo the letter width; a potential (length, data) grows with every call; the orbits of length three are finite and checked for every width by computation (L_IterKeys.v)'),
 'CommFloat': ('M_Algebra.v, M_Float.v', 'one fold over the terms of both products (C29), then the error of a sum of rounded products as in C85'),
 'ProgFloat': ('M_Vector.v, M_Dense.v, M_Algebra.v, M_Float.v', 'programs refine the scalar operations of S_ProgSteps.v (L_ProgSteps.v); each command keeps a relation between a float and the results of three programs on rational numbers - exact values, sizes, largest sizes - proved once for any relation closed under the scalar operations (L_ProgRel.v) and used with the error bound (L_ProgError.v) and with integers (L_ProgInt.v)'),
 'TensorProg': ('M_Vector.v, M_Dense.v, M_Algebra.v', 'each command keeps the relation between variables and coefficient functions (mul_add_ok and mul_add_UB of L_Algebra.v for products, the calls of C26 for the rest); induction over the program'),
 'KeyIndex': ('M_TensorBasis.v, M_Dense.v', 'induction over the letters read so far, for reads and sums that overflow as well; then C58'),
 'SizeField': ('M_TensorKey.v', 'the functions depend on the alphabet through letter_bits(N) only, which has 32 values'),
 'NextKey': ('M_TensorBasis.v', 'after i letters N the iterator has cleared the last i-1+b bits of the data and no others, so the letters are still read correctly; then arithmetic (L_NextKey.v)'),
 'IndexKey': ('M_TensorBasis.v', 'induction over the letters pushed so far; a cut key is the key of the word with a shortened first letter (L_IndexKey.v)'),
 'KeyRaw': ('M_TensorKey.v', 'masks and shifts cut at 64 bits, as division and remainder, in builds with and without overflow checks (L_KeyRaw.v)'),
 'Float': ('M_Float.v', 'rounding lemmas about Coq.Floats.SpecFloat proved by integer arithmetic'),
}
props = [json.loads(l) for l in open(os.path.join(root, 'properties.jsonl'))]
claims = {c['property']: c for c in json.load(open(os.path.join(root, 'MANIFEST.json')))['claims']}
where = {}
for f in sorted(glob.glob(os.path.join(root, 'rocq/theories/P_*.v'))):
    x = os.path.basename(f)[2:-2]
    for m in re.finditer(r'^Theorem (C\d\d\w+)', open(f).read(), re.M): where[m.group(1)] = x
out = ['', '## Per property', '', '| property files | model | how proved |', '|---|---|---|']
for x, (mod, how) in HOW.items(): out.append(f'| L_Prop{x}.v, P_{x}.v | {mod} | {how} |')
out += ['', '| id | property | theorems in | status |', '|---|---|---|---|']
for p in props:
    c = claims[p['id']]
    st = c['status'] + (' (refuted as stated)' if 'REFUTED' in c['note'] else '')
    out.append(f"| {p['id']} | {p['title']} | {', '.join('P_%s.v' % x for x in sorted(set(where[t] for t in c['theorems'])))} | {st} |")
f = os.path.join(root, 'DESIGN.md')
s = open(f).read().split(MARK)[0]
open(f, 'w').write(s + MARK + '\n' + '\n'.join(out) + '\n')
