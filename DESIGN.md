# emlearn in Rocq (Coq 8.16.1): design

## Layout

    rocq/theories/Base/   error monad, bounds-checked C memory, C integer ranges, binary32/64
    rocq/theories/Model/  the model: definitions only, each citing file:lines in /repo
    rocq/theories/Spec/   small specifications, written without the model's helpers
    rocq/theories/Proof/  lemmas
    rocq/theories/Props/  one file per area: the theorems of the properties and, beside each,
                          concrete instances meeting the hypotheses; ends in Print Assumptions
    seeded/LOG.jsonl      mutation-test log
    tools/                generator of properties.jsonl, mutation runner

## Modelling conventions

* A C or Python function is a Gallina function into `res A := Ret a | Err fault`.
  Faults are of three kinds: C undefined behaviour (OutOfBounds, SignedOverflow, DivByZero,
  BadShift, BadCast, InfiniteLoop ...), Python exceptions (AssertionError_, ValueError_,
  KeyError_, IndexError_, AttributeError_ ...), and `NoFuel`.  A theorem concluding
  `f x = Ret y` therefore includes "no undefined behaviour, no exception, termination".
* C arrays are lists; every access goes through a bounds-checked get/set with a Z index.
  Writes to buffers are returned as the new buffer.  Two pointers into different objects
  never alias (stated where the code could alias).
* C integers are Z; every arithmetic operation whose result type matters is wrapped
  (unsigned) or checked (signed overflow is a fault).  Assignments to narrower types narrow.
* Loops are structural recursion over the iteration space when it is known, otherwise fuel
  with fault NoFuel; termination = the theorem gives Ret for a fuel computed from the input.
* Floating point: Flocq `binary_float` with rounding to nearest even where the property is
  about rounding (vote counting, leaf quantisation, quantisers, fixed point); FLT_EVAL_METHOD 0,
  no -ffast-math is assumed. Numeric kernels (net, IIR, FFT, distances, mixture, filterbank)
  are polymorphic over a record of operations: theorems about structure, memory
  safety and history hold for any operations (hence for floats); "in exact arithmetic"
  theorems instantiate the record with the reals.
* A property that is false of the code keeps its full statement: a theorem `..._refuted`
  proves the negation with a witness that the code accepts, and `..._partial` theorems prove
  the exact conditions under which it holds.

## Properties: what is modelled, how it is proved

| id | model | proof plan |
|----|-------|------------|
| C01-C04 | flatten_tree, flatten_forest, remove_duplicate_leaves, assert_node_references_valid, over parallel arrays, with Python dict look-ups and negative indexing | inductive `reaches` relation of the sklearn arrays; invariants of the numbering loop; simulation between absolute walk and `reaches` |
| C05-C06 | encode_child, generate_c_nodes, eml_trees_predict_tree over int16/int8 fields | well-founded order on node indices (children have larger index) gives the fuel bound; simulation |
| C07-C10 | eml_trees_predict(_proba), generated inline program as an AST with C semantics, binary32 counting | exactness of integer binary32 below 2^24; monotonicity of rounding; refutation by computation for C10 |
| C11 | int(), comparison in generated code vs `<=` over float64 | exact iff characterisation, witness |
| C12 | quantize_probabilities_into_byte over binary64 | Flocq rounding lemmas; error bound in R |
| C13 | leaves_to_bytelist with float32 -> 4 bytes and memcpy back | Bits round trip of Flocq |
| C14 | predict_wrapper | refutation and partial |
| C15 | model_size_bytes vs generated tables | iff characterisation |
| C16 | csv records, and the text of the lines (str() of floats abstract, reads back) | decoding function in Spec; round trip; what a text says is a relation, shown unique; refutation for single-node trees |
| C17-C18 | eml_isqrt, eml_distance_euclidean_int16 with int32 arithmetic | loop invariant; refutation for large values |
| C19 | QSORT macro: explicit stack, median of 3, insertion sort | permutation + sortedness invariants, stack-depth bound by halving |
| C20-C21 | eml_neighbors_* | on top of the sort theorem; history induction |
| C22-C25 | eml_array over a byte buffer | arithmetic of offsets, memmove lemma, induction on the chunk list |
| C26-C27 | CSV writer/reader over a character stream with fgets | round-trip by induction on rows |
| C28-C30 | Q16, log2fix | Z arithmetic with sign cases; log2 bounds in R |
| C31 | eml_bayes_predict | argmax invariant; monotonicity |
| C32-C36 | eml_net, inline template | polymorphic arithmetic, R instance |
| C37 | convert_keras | layer list semantics |
| C38 | eml_iir | state-space induction on the stream |
| C39-C40 | eml_fft | complex DFT in R, Cooley-Tukey induction; bit reversal algebra |
| C41-C42 | filterbank, melspec | list algebra, bounds |
| C43-C44 | distance, mixture | R algebra |
| C45-C46 | quantisers | Flocq, monotonicity of rounding |
| C47 | pareto | list invariants |
| C48-C49 | cgen | regex as list predicate, decimal printing/reading |
| C50 | eml_test harness | tokeniser round trip |
| C51 | error strings | refutation by computation |
| C52 | eml_vector | list segments |
| C53 | eml_neighbors_check | size arithmetic, iff, refutation of completeness |
| C54-C55 | CSV writer failures, header reader | induction on columns; witnesses |
| C56 | bayes.py generate_c, convert_attributes | text of literals, Q16 conversion |
| C57 | bindings: IIRFilter | polymorphic arithmetic |
| C58, C60 | length checks of eml_elliptic_envelope_predict, eml_mixture_* | witnesses |
| C59 | mixture.py predict | argmax, log-sum-exp |
| C61-C62 | eml_fft rfft, power spectrum | on top of C39 |
| C63 | eml_audio melfilter, mel scale | monotone real functions; nearest bin |
| C64-C65 | eml_audio melspec, mean subtraction, Hann window | composition, R algebra |
| C66 | Quantizer.from_data | Flocq |
| C67-C69 | cgen constants, declarations, fixed-point arrays | text model of printing, reading in Spec |
| C70-C72 | common.py run_classifier/CompiledClassifier with the test program of eml_test.h: rows printed with %.8f, parsed with strtod, results printed and parsed back | tokeniser round trip; decimal error bounds |
| C73-C79 | trees end to end: convert, save, compile (as a model of the generated program), run, parse | composition of C01-C13 with C70-C72 |
| C80-C82 | kNN end to end | composition of C19-C21 with C70 |
| C83-C84 | sessions: many conversions and predictions over one build directory | history induction over a file-system state |
| C85 | labels of the training data | witness, composition |
| C86-C88 | rounding error of networks and Mahalanobis distance; libm functions are parameters with an accuracy hypothesis (C88_libm_exists shows it can be met) | forward error analysis over Flocq |
| C89-C95 | networks end to end (weights printed with %f, run, parsed) | composition of C32-C37, C86-C88, C70-C72 |
| C96 | eml_benchmark.h: Park-Miller generator and fill | modular arithmetic, order of 48271 modulo 2^31-1 from the factorisation of 2^31-2 |
| C97 | evaluate/size.py parsing of `size -A` | text model; parse of any layout of columns |
| C98-C99 | evaluate/trees.py compute_cost_estimate; passes of the loop of eml_trees_predict_tree | relation counting decision nodes; simulation carried through flattening and de-duplication |
| C100-C103 | signal.py sparse_filterbank_serialize, tools/window_function.py, tools/mel_filterbank.py, the part of textwrap.wrap they use | C tokens of a text (LutSpec), tokens of each declaration; invariant over the wrapping loop: words kept when they fit, lines bounded; digit counts bound the words |
| C104 | eml_sparse_filterbank with perturbed coefficients | re-splitting the printed table along the bands, sums of errors |
| C105 | argparse type=bool of two options | case split; refuted |
| C106, C107 | distance.py from the fitted numbers to the returned ones: printed constants, str() of the offset read as a C constant, the test program (Harness), the unused numpy calculation | error of a quadratic form under perturbation of all its numbers, plus the float32 error of C86; sign of a rounded difference |
| C108 | the assertions of squared_mahalanobis_distance | case split on the first wrong row |
| C109 | numpy's arithmetic with seterr(all='raise') | magnitudes: every number a multiple of a power of two, so products never fall below 2^-1022; refuted by 2^-600 |
| C110 | Wrapper.__init__ of distance.py and convert's default | case split; refuted |
| C111 | the decimal constant of the offset | double rounding (float64 -> text -> float32) bounded by error_N_FLT; fmt_fixed 1074 meets the assumption |
| C112 | eml_bayes_logpdf against the density of the normal distribution over the reals | bounds on ln 2 and PI from series with remainder; rounding of each fixed-point step |
| C113 | bayes.Wrapper end to end (table, str() constants, EML_Q16 conversion, compiled program, predict) | conversion errors of mean, std, log2 std and value, propagated through the score; C55's highest score; refuted for 1 class and more than 10 |
| C114 | the same, priors | equal priors follow from C113; refuted in general |
| C115 | Wrapper.__init__ options, numpy.sqrt / log2 under seterr(raise), short rows | case split; short rows refuted |
| C116 | mixture.Wrapper.__init__, generate_code, build_executable, main, predict, score_samples: text of constants and arguments, float32, libm as expf/logf with errors ge, gl | chain of error bounds: printed constants, argv, dot products, log density in double, log-sum-exp, "%f" and float() |
| C117 | predict_proba, predict_log_proba on the same program | softmax perturbation on top of C116 |
| C118 | Wrapper.predict: numpy.argmax of the printed probabilities | from C117 and argmax; small Cholesky factors refuted |
| C119 | argc check, constants nanf / inff, covariance_type, ndim, empty X, method | case split and mapM with one failing row |
| C120 | convert.py dispatch on the name of the class, attributes each wrapper reads | case split over the table of names; substring search |
| C121 | convert then predict for the seven families | composition of C73, C75, C80, C90, C107, C113, C118 |
| C122 | return_type of the networks | C89 and a concrete regressor |
| C123 | arguments of convert | case split; equality of the results for the ignored ones |
| C124 | predict_proba, score_samples of the six wrappers | case split; C74, C91, C106, C116, C117 |
| C125 | convert_keras and convert, layers applied one by one on reals | induction over the layers with a pending activation |
| C126-C127 | eml_fft_fill, eml_fft_forward and rfft in float32, the table's angle in double | error of one butterfly in modulus, induction over blocks and stages with the DFT of every block as invariant; the distance of M_PI from pi by Machin's formula, Lipschitz bounds for cos and sin |
| C128-C129 | eml_sparse_filterbank and its binding with any indices | loop invariant on the running offset, both directions; `tracks` sums for float32 |
| C130 | eml_signal_hann_apply (double window), eml_signal_mean in float32 | rounding lemmas |
| C131-C134 | arduino/install.py on a file system that records every state it goes through; glob, fnmatch, shutil.copy | loop invariant over the copied files on all recorded states; a repeated run from any of them |
| C135 | eml_net_fixedpoint.h eml_net_forward_q16 as compiled | the loops do nothing |
| C136 | eml_log.h macros as printf with formats; the bytes written | separators occur nowhere else: log_of is injective on proper entries |
| C137 | eml_iir_filter over float32 (round to nearest, Flocq), feed of any length; iirfilter binding | the local rounding errors of a section are an extra input of its recursive part: gain times them; induction over stream and cascade |
| C138 | the difference equation of a section (IirSpec.section_of) | partial fractions over C: two first-order recursions; an unstable pole has an unbounded response |
| C139 | TreesRun.wrapper_predict_proba with leaf_bits 2..8, against SoftSpec.mean_share (real mean of the leaf rows) | the table of leaves holds the quantised rows (C12); induction over the trees for the float32 sums (FloatMean); six decimals (Through) |
| C140 | TreesRun.wrapper_predict, same specification | the class chosen has the largest computed mean, each computed mean is within soft_err of the real one; witness for the refutation by computation |
| C141 | SaveText.trees_text (the characters returned by save for inline inference); specification: CTextSpec, a reader of C (tokens, top-level definitions by matching brackets, called identifiers) | lexing lemmas for the pieces of the templates; induction over trees and nodes. The statements of NAME_predict around the calls are read back and run in C147/C148 |
| C142 | SaveText tree functions; CTextSpec parses if/else/return and executes it on a row | induction over the node table, the program TreesInline is what the parsed text executes; then C09/C60-type lemmas relate it to the fitted tree |
| C143 | SaveText loadable text; SaveSpec.load_trees reads the initialised struct and its arrays | array/table/struct lemmas; composition with C07 |
| C144 | SaveText.neighbors_text; SaveSpec.load_neighbors | the same |
| C145 | SaveApi: basename, splitext, save; files are a function from paths to contents; SaveSpec.saves, stem_of | case analysis, lists; witness for Bayes |
| C146 | identifiers of the texts of C141, C143, C144 | all start with the name; witnesses |
| C147 | the text of NAME_predict in SaveText; specification: CRunSpec, a grammar of C statements over tokens (declarations, assignment, +=, for, if, return; operands without precedence) and an interpreter with int/float variables and arrays, which has no value on overflow, bad index, wrong type, unknown name; AnswerSpec | each template is lexed and parsed (CRunRead, SaveInline), the parsed statement is run by induction over trees and classes (CRun) and returns what TreesInline returns; then C73/C139/C140-type lemmas |
| C148 | the text of NAME_predict_proba, same interpreter | the same; the part of the array after the classes |
| C149 | SaveNetText.net_text (the characters returned by save of a network); specification: SaveNetSpec.load_net, which reads the file with CTextSpec (float arrays, arrays without initialiser, the table of layers, the struct) | lexing lemmas for the pieces; induction over layers; names distinct (fmt_int injective, no underscore in it), so every name looked up is the array meant; the result is NetRun.save_compiled's network |
| C150 | SaveModelsText.envelope_text (the characters returned by save of an elliptic envelope); specification: SaveModelsSpec.consists_of, holds_envelope, envelope_code (the decision boundary is str() of a number: any str() that reads back, the constant's nearest float) | the text as a list of declarations, each lexed on its own and put together (SaveModels.is_file); names distinct; gcc's reading of str() is the nearest float (Str) |
| C151 | SaveModelsText.mixture_text (the characters returned by save of a Gaussian mixture); specification: SaveModelsSpec.load_mixture | as C150; the result is MixtureRun.build_executable's mixture |
| C152 | SaveModelsText.bayes_text (the characters returned by save of a naive Bayes model); specification: SaveModelsSpec.holds_bayes (rows of brackets, each field EML_Q16_FROMFLOAT of a constant whose nearest double gives the number), bayes_code | as C150; lexing and brackets by induction over the rows; the numbers are those of BayesRun.save_nb |

Every property of properties.jsonl is expressed in the model; none is declared out of scope.
Properties found false of the code have status "partial": the refutation and the exact
conditions under which they hold are both proved.

## Trusted base

1. Coq 8.16.1's kernel (coqc; vcheck also runs coqchk).
2. The axioms of the standard library listed in AXIOMS.md, theorem by theorem (generated by
   tools/axioms.sh from Print Assumptions). They are at most:
   ClassicalDedekindReals.sig_forall_dec, ClassicalDedekindReals.sig_not_dec,
   Classical_Prop.classic, FunctionalExtensionality.functional_extensionality_dep
   (all four come with the standard library's real numbers). No axiom is added; Flocq and
   Coquelicot are used as libraries of proved lemmas and add none.
3. The faithfulness of the model. Every definition in Model/ cites the lines it models and says
   where it simplifies. Modelled:
   * emlearn/trees.py, evaluate/trees.py, evaluate/size.py, evaluate/pareto.py, cgen.py,
     common.py (build and run of the executables; gcc is modelled as succeeding unless the text
     is rejected by the -Wall -Wextra -Werror flags in the ways stated in Model/Harness.v and
     Model/NetRun.v), convert.py, neighbors.py, bayes.py, net.py, distance.py, mixture.py,
     signal.py, tools/window_function.py, tools/mel_filterbank.py and the part of textwrap.wrap
     they use, arrays/preprocessing Quantizer, bindings of the filters, arduino/install.py
     (with the parts of glob, fnmatch, os and shutil it uses; no links, no permissions);
   * emlearn/eml_trees.h, eml_neighbors.h, eml_qsort.h, eml_array.h, eml_vector.h, eml_csv.h,
     eml_fixedpoint.h, eml_log.h, eml_bayes.h, eml_net.h, eml_net_fixedpoint.h, eml_iir.h,
     eml_distance.h, eml_mixture.h, eml_fft.h, eml_audio.h, eml_test.h, eml_benchmark.h,
     eml_common.h error strings.
   Not modelled: training (scikit-learn, Keras), numpy beyond the operations used, the C
   compiler and its optimisations, real files and processes (replaced by text and by a map from
   paths to programs), timing (eml_benchmark timers), plotting, platform code for embedded
   targets, examples and documentation.
4. Machine assumptions: int 32 bit, long/size_t 64 bit, IEEE 754 binary32/64 with rounding to
   nearest even, FLT_EVAL_METHOD 0, no -ffast-math, arithmetic right shift of negative numbers.
   Functions of libm (exp, tanh, log2, sqrt in distances) are parameters; theorems with numbers
   in them state the accuracy hypothesis they need.
