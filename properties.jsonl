{"id": "C01", "title": "Flattening a tree preserves its decisions", "statement": "Converting one fitted sklearn tree (its parallel arrays children_left/children_right/feature/threshold/value) with flatten_tree yields a (decision nodes, leaves) pair such that, for any left/right decision procedure, walking the flat nodes from node 0 ends in the leaf holding exactly the converted value of the sklearn leaf that the same decision procedure reaches from the sklearn root; this includes the single-leaf tree.", "quantifier": "every well-formed tree array of any size and shape, every decision procedure (hence every feature vector and threshold semantics)", "why_tests_cant": "Index remapping (leaves removed, decision nodes renumbered) can be wrong only for particular shapes/orders of nodes; there are unboundedly many shapes.", "anchors": ["emlearn/trees.py:flatten_tree"]}
{"id": "C02", "title": "Forest conversion preserves every tree", "statement": "After flatten_forest over any list of trees, followed by remove_duplicate_leaves, the walk from the i-th root ends in a leaf whose value equals the value reached in the i-th original tree; roots has one entry per tree in order.", "quantifier": "every list of well-formed trees, every decision procedure", "why_tests_cant": "Offsets of node and leaf references accumulate over trees; a wrong offset shows only for some combinations of tree sizes.", "anchors": ["emlearn/trees.py:flatten_forest", "emlearn/trees.py:remove_duplicate_leaves"]}
{"id": "C03", "title": "Leaf de-duplication", "statement": "remove_duplicate_leaves returns a leaf table without two equal entries, whose set of values is unchanged, that is never longer than the input, and every node child still denotes an equal leaf value (decision-node references and roots are unchanged); applying it again changes nothing.", "quantifier": "every forest and every leaf table", "why_tests_cant": "Needs all patterns of duplicates.", "anchors": ["emlearn/trees.py:remove_duplicate_leaves"]}
{"id": "C04", "title": "Conversion of a valid model never raises, and sizes add up", "statement": "For every non-empty list of well-formed sklearn trees none of the assertions, dictionary look-ups or divisions in flatten_tree/flatten_forest/remove_duplicate_leaves fails, all child references of the result are valid and every decision node and leaf is referenced, and for each tree (decision nodes + leaves) equals node_count (2 for a single-node tree).", "quantifier": "every list of well-formed trees", "why_tests_cant": "Internal assertions abort conversion on user models; only a proof covers all shapes.", "anchors": ["emlearn/trees.py:flatten_tree", "emlearn/trees.py:flatten_forest", "emlearn/trees.py:assert_node_references_valid", "emlearn/trees.py:remove_duplicate_leaves"]}
{"id": "C05", "title": "Loadable tree walk: termination, memory safety, result", "statement": "For every converted forest whose encoded fields fit the C struct, the C walk eml_trees_predict_tree over the generated node table terminates within the number of nodes, reads only inside nodes[] and features[], and returns the index of the leaf that the forest's own (absolute-index) semantics reaches with the comparison feature < threshold.", "quantifier": "every converted forest within the C field ranges, every int16 feature vector of the model's length", "why_tests_cant": "Termination and absence of out-of-bounds reads range over all inputs.", "anchors": ["emlearn/eml_trees.h:eml_trees_predict_tree", "emlearn/trees.py:encode_child", "emlearn/trees.py:generate_c_nodes"]}
{"id": "C06", "title": "Accepted child references fit the C node struct", "statement": "Every child reference accepted by the conversion (encode_child does not raise) is representable in the int16_t field of EmlTreesNode, so the C walk decodes it to the same target.", "quantifier": "every (node index, child) pair", "why_tests_cant": "The failing value is a single boundary (offset 32768) reached only by forests with more than 32768 decision nodes.", "anchors": ["emlearn/trees.py:assert_valid_child", "emlearn/trees.py:encode_child", "emlearn/eml_trees.h:EmlTreesNode"]}
{"id": "C07", "title": "Loadable predict is the majority vote", "statement": "With hard voting, eml_trees_predict returns the lowest-numbered class with the maximum number of tree votes - despite counting in float and dividing by the number of trees - and never reads or writes outside its buffers.", "quantifier": "every generated hard-voting forest with 1..2^24-1 trees and at most 30 classes, every feature vector", "why_tests_cant": "Rounding of float counters and of the division could merge two different vote counts; ties and counts up to 2^24 cannot be enumerated.", "anchors": ["emlearn/eml_trees.h:eml_trees_predict", "emlearn/eml_trees.h:eml_trees_predict_proba"]}
{"id": "C08", "title": "Loadable predict_proba (hard voting) and its error codes", "statement": "eml_trees_predict_proba stores in out[c] the float nearest to votes(c)/n_trees; on a wrong out_length it returns EmlSizeMismatch and leaves out unchanged; for an unsupported leaf format it returns EmlUnsupported; eml_trees_predict returns the length error for a wrong feature count or more than 30 classes.", "quantifier": "every forest, features, output buffer", "why_tests_cant": "Exactness of rounding over all vote counts.", "anchors": ["emlearn/eml_trees.h:eml_trees_predict_proba", "emlearn/eml_trees.h:eml_trees_predict"]}
{"id": "C09", "title": "Inline and loadable code agree (hard voting)", "statement": "For every model with int16 features and hard voting the generated inline C program and the loadable C program return the same class for predict and bit-identical predict_proba outputs.", "quantifier": "every converted forest within field ranges with 1..2^24-1 trees, every feature vector", "why_tests_cant": "Two independent code generators must agree on all inputs.", "anchors": ["emlearn/trees.py:generate_c_inlined", "emlearn/trees.py:generate_c_loadable", "emlearn/eml_trees.h:eml_trees_predict"]}
{"id": "C10", "title": "Inline and loadable code agree (soft voting)", "statement": "With leaf_bits 2..8 the generated inline and loadable programs return bit-identical predict_proba outputs and the same predict class.", "quantifier": "every converted soft-voting forest, every feature vector", "why_tests_cant": "The loadable code takes the argmax after dividing by the number of trees, the inline code before; whether rounding can flip the winner is a question about all sums.", "anchors": ["emlearn/trees.py:generate_c_inlined", "emlearn/eml_trees.h:eml_trees_predict_proba", "emlearn/eml_trees.h:eml_trees_predict"]}
{"id": "C11", "title": "Generated code takes the same branch as scikit-learn", "statement": "At every decision node and for every integer feature value x, the generated comparison x < int(threshold) is true exactly when scikit-learn's x <= threshold is.", "quantifier": "every threshold, every integer feature value", "why_tests_cant": "The disagreement is at one boundary value per node.", "anchors": ["emlearn/trees.py:generate_c_nodes", "emlearn/trees.py:generate_c_inlined", "emlearn/cgen.py:constant", "emlearn/eml_trees.h:eml_trees_predict_tree"]}
{"id": "C12", "title": "Quantisation of leaf probabilities", "statement": "quantize_probabilities_into_byte maps a probability vector in [0,1] to bytes in 0..255, monotonically, 0 to 0 and 1 to 255, and byte/255 differs from the probability by at most 1/(2*(2^bits-2)) + 1/255 (up to float rounding), using at most 2^bits-1 distinct levels.", "quantifier": "every probability in [0,1] (any float64) and every bits in 2..8", "why_tests_cant": "float64 rounding, half-even rounding and truncation interact; the input domain is 2^62 floats.", "anchors": ["emlearn/trees.py:quantize_probabilities_into_byte"]}
{"id": "C13", "title": "Regression leaves survive the byte table", "statement": "For a regressor, eml_trees_regress reads from the generated byte table, for every tree, exactly the float32 nearest to the sklearn leaf value, sums them in tree order and divides by the number of trees; with leaf formats other than 32 it returns EmlUnsupported and eml_trees_regress1 returns NAN.", "quantifier": "every regression forest, every feature vector", "why_tests_cant": "Byte encodings must be inverse for all 2^32 bit patterns and all table positions.", "anchors": ["emlearn/trees.py:leaves_to_bytelist", "emlearn/eml_trees.h:eml_trees_regress", "emlearn/eml_trees.h:eml_trees_regress1"]}
{"id": "C14", "title": "Errors are never reported as a predicted class", "statement": "The Python predict() of a converted tree classifier never turns a C error code or a 'no class' result into a class number.", "quantifier": "every converted classifier and input row", "why_tests_cant": "Error results occur only for particular models (more than 30 classes, all-zero quantised leaves).", "anchors": ["emlearn/trees.py:Wrapper._build_classifier", "emlearn/eml_trees.h:eml_trees_predict"]}
{"id": "C15", "title": "Reported model size is the size of the generated tables", "statement": "evaluate.trees.model_size_nodes/leaves/bytes report the number of decision nodes, of leaves, and the bytes used by the node and leaf tables of the generated loadable code.", "quantifier": "every converted model, every leaf_bits", "why_tests_cant": "A formula must match the generator for all models.", "anchors": ["emlearn/evaluate/trees.py:model_size_bytes", "emlearn/trees.py:leaves_to_bytelist", "emlearn/trees.py:generate_c_loadable"]}
{"id": "C16", "title": "CSV export of trees is complete and re-readable", "statement": "save(format='csv') succeeds for every converted model and the written f/c/lb/l/r/n records determine the forest: decoding relative child references gives back the same nodes, roots and leaves.", "quantifier": "every converted forest", "why_tests_cant": "Round-trip over all forests, including degenerate single-leaf trees.", "anchors": ["emlearn/trees.py:Wrapper.save", "emlearn/trees.py:encode_child"]}
{"id": "C17", "title": "kNN distance is the Euclidean distance", "statement": "eml_distance_euclidean_int16 returns the integer part of the Euclidean distance between the two int16 vectors.", "quantifier": "every pair of int16 vectors of any length", "why_tests_cant": "The function is wrong only for large differences (sum of squares >= 2^30), which tests do not reach.", "anchors": ["emlearn/eml_neighbors.h:eml_distance_euclidean_int16"]}
{"id": "C18", "title": "Integer square root", "statement": "eml_isqrt(x) returns floor(sqrt(x)).", "quantifier": "every int32 x", "why_tests_cant": "2^31 inputs; failing ones are in the top half of the range.", "anchors": ["emlearn/eml_neighbors.h:eml_isqrt"]}
{"id": "C19", "title": "In-place sort is correct, safe and bounded", "statement": "eml_neighbors_sort_distances leaves the array sorted by distance and a permutation of the input, never accesses an element outside the array, never needs more than the fixed number of stack frames, and terminates.", "quantifier": "every array length below 2^48 and every content", "why_tests_cant": "Sentinel-based inner loops and the explicit stack bound depend on all permutations and sizes.", "anchors": ["emlearn/eml_qsort.h:QSORT", "emlearn/eml_neighbors.h:eml_neighbors_sort_distances"]}
{"id": "C20", "title": "kNN prediction is the vote of the k nearest items", "statement": "When it returns EmlOk, eml_neighbors_predict stores the lowest label having the most votes among k items such that no other item is strictly nearer; it returns an error exactly for wrong lengths, k larger than the number of items, or a label of a neighbour outside 0..9.", "quantifier": "every stored data set, query and k", "why_tests_cant": "Depends on all orderings of distances and labels.", "anchors": ["emlearn/eml_neighbors.h:eml_neighbors_predict", "emlearn/eml_neighbors.h:eml_neighbors_find_nearest", "emlearn/eml_neighbors.h:eml_neighbors_infer"]}
{"id": "C21", "title": "On-device learning keeps exactly the accepted items", "statement": "After any sequence of eml_neighbors_add_item calls the model holds exactly the accepted (values,label) pairs, in order; a call is accepted iff its length matches and there is room; a rejected call changes nothing, and no memory outside the item's slots is written.", "quantifier": "every history of add_item calls", "why_tests_cant": "History property.", "anchors": ["emlearn/eml_neighbors.h:eml_neighbors_add_item", "emlearn/eml_neighbors.h:eml_neighbors_check"]}
{"id": "C22", "title": "2-D array addressing is in bounds and injective", "statement": "After a successful eml_array_init_full with 2 dimensions, eml_array_data_2d returns NULL exactly for out-of-range (col,row), and otherwise an offset whose value_size bytes lie inside the buffer and do not overlap those of any other cell.", "quantifier": "every dimensions, value size, buffer length and cell", "why_tests_cant": "Non-linear index arithmetic over all sizes.", "anchors": ["emlearn/eml_array.h:eml_array_init_full", "emlearn/eml_array.h:eml_array_data_2d", "emlearn/eml_array.h:eml_storage_size_array"]}
{"id": "C23", "title": "Row shift", "statement": "eml_array_shift_rows(-s) with 0<=s<=rows moves row i+s to row i for every i < rows-s, leaves the remaining rows and everything outside the array unchanged; other arguments give an error without any change.", "quantifier": "every 2-D array, content and shift", "why_tests_cant": "In-place overlapping copies, all sizes.", "anchors": ["emlearn/eml_array.h:eml_array_shift_rows"]}
{"id": "C24", "title": "Row copy", "statement": "eml_array_copy_rows(self,start,other) either returns an error and changes nothing, or copies every row of other to rows start.. of self and leaves all other rows unchanged.", "quantifier": "every pair of 2-D arrays and start", "why_tests_cant": "All shapes and element sizes.", "anchors": ["emlearn/eml_array.h:eml_array_copy_rows"]}
{"id": "C25", "title": "Sliding window over a stream", "statement": "Repeating shift_rows(-k) followed by copy_rows(rows-k, chunk of k rows) keeps the array equal to the last `rows` rows of the initial content followed by all chunks.", "quantifier": "every sequence of chunks (of varying heights <= rows)", "why_tests_cant": "History property over unbounded streams.", "anchors": ["emlearn/eml_array.h:eml_array_shift_rows", "emlearn/eml_array.h:eml_array_copy_rows"]}
{"id": "C26", "title": "CSV written is CSV read", "statement": "A header and any rows written with EmlCsvWriter are returned, field by field and in order, by EmlCsvReader on the same stream, and after the last row the reader reports 0.", "quantifier": "every list of column names and rows of formatted fields, every buffer large enough for the longest line", "why_tests_cant": "Histories of reads with seeks; all row counts and lengths.", "anchors": ["emlearn/eml_csv.h:eml_csv_writer_write_header", "emlearn/eml_csv.h:eml_csv_writer_write_data", "emlearn/eml_csv.h:eml_csv_reader_read_header", "emlearn/eml_csv.h:eml_csv_reader_read_data"]}
{"id": "C27", "title": "CSV reader failures are distinguishable", "statement": "eml_csv_reader_read_data returns a negative value on failure, 0 only at the end of the stream, and otherwise the number of columns read.", "quantifier": "every stream content and reader state", "why_tests_cant": "The wrong cases are particular inputs (blank line, too small columns array).", "anchors": ["emlearn/eml_csv.h:eml_csv_reader_read_data", "emlearn/eml_csv.h:eml_csv_reader_read_internal"]}
{"id": "C28", "title": "Q16 division rounds to nearest", "statement": "eml_q16_div(a,b) is a*2^16/b rounded to the nearest integer, halves away from zero, whenever b is non-zero and the result fits 32 bits.", "quantifier": "every pair of int32 values", "why_tests_cant": "2^64 input pairs and four sign combinations.", "anchors": ["emlearn/eml_fixedpoint.h:eml_q16_div"]}
{"id": "C29", "title": "Q16 multiplication and conversions", "statement": "EML_Q16_FROMINT/TOINT round-trip for every 16-bit integer; eml_q16_mul(x,y) never exceeds the 32-bit range when both operands are below 2^23 in magnitude and differs from x*y/2^16 by at most (|x|+|y|)/2^8 + 1; Python from_float/to_float lose less than one unit 2^-fraction_bits and are exact on representable numbers.", "quantifier": "every operand", "why_tests_cant": "All operand values.", "anchors": ["emlearn/eml_fixedpoint.h:eml_q16_mul", "emlearn/eml_fixedpoint.h:EML_Q16_FROMINT", "emlearn/fixedpoint.py:from_float", "emlearn/fixedpoint.py:to_float"]}
{"id": "C30", "title": "Fixed-point log2", "statement": "eml_bayes_log2fix(x,p) terminates for every accepted precision and its result y satisfies y/2^p <= log2(x/2^p) < y/2^p + 4/2^p.", "quantifier": "every x>0 in uint32 and every accepted precision", "why_tests_cant": "Error accumulation over all inputs; non-termination at one precision.", "anchors": ["emlearn/eml_bayes.h:eml_bayes_log2fix"]}
{"id": "C31", "title": "Naive Bayes prediction is the most probable class", "statement": "eml_bayes_predict returns the lowest class index whose accumulated log-probability is maximal, always within 0..n_classes-1, and touches no memory outside the model and its local array; a feature value nearer to a class mean never lowers that class's score.", "quantifier": "every model, every input", "why_tests_cant": "All class counts (local array has 10 entries) and all scores.", "anchors": ["emlearn/eml_bayes.h:eml_bayes_predict", "emlearn/eml_bayes.h:eml_bayes_logpdf", "emlearn/eml_bayes.h:eml_bayes_logpdf_std"]}
{"id": "C32", "title": "Network inference is layer composition and keeps no history", "statement": "eml_net_infer leaves in activations2 the composition of the layers (activation(W^T x + b)) applied to the features; the result does not depend on what the activation buffers held before, so any earlier sequence of calls has no influence, and nothing outside the buffers is accessed.", "quantifier": "every network with >= 2 layers of compatible sizes, every input, every previous buffer content, any float arithmetic", "why_tests_cant": "History and shape quantification.", "anchors": ["emlearn/eml_net.h:eml_net_infer", "emlearn/eml_net.h:eml_net_forward", "emlearn/eml_net.h:eml_net_layer_forward"]}
{"id": "C33", "title": "predict, predict_proba and regress are consistent", "statement": "predict_proba(x)[c] is the network's output for class c (for one output p: [1-p, p]) and predict is consistent with it; regress returns the raw outputs.", "quantifier": "every network and input", "why_tests_cant": "All output sizes; the 2-output case is special.", "anchors": ["emlearn/eml_net.h:eml_net_predict_proba", "emlearn/eml_net.h:eml_net_predict", "emlearn/eml_net.h:eml_net_regress", "emlearn/eml_net.h:eml_net_regress1"]}
{"id": "C34", "title": "Inline and loadable networks agree", "statement": "The inference function of the inline template and eml_net_infer on the generated structs compute the same outputs and the same predicted class.", "quantifier": "every network, every input of the right length", "why_tests_cant": "Two code paths, all networks.", "anchors": ["emlearn/templates/net_float.jinja", "emlearn/net.py:c_generate_net_inline", "emlearn/net.py:c_generate_net_loadable", "emlearn/eml_net.h:eml_net_infer"]}
{"id": "C35", "title": "argmax helpers return the position of the maximum", "statement": "eml_net_argmax (float) and eml_argmax_fixed32 return the first index of a maximal element for every non-empty array.", "quantifier": "every array", "why_tests_cant": "Failing inputs are those whose maximum is first (fixed32) or all -inf/NaN (float).", "anchors": ["emlearn/eml_net.h:eml_net_argmax", "emlearn/eml_net_fixedpoint.h:eml_argmax_fixed32", "emlearn/net.py:argmax"]}
{"id": "C36", "title": "Softmax and activation ranges", "statement": "In exact arithmetic eml_net_softmax turns any non-empty vector into positive numbers that sum to 1, keep the order of the inputs and equal exp(x_i)/sum exp(x_j); logistic lies in (0,1), relu is max(0,x).", "quantifier": "every real vector", "why_tests_cant": "All vectors.", "anchors": ["emlearn/eml_net.h:eml_net_softmax", "emlearn/eml_net.h:eml_net_relu", "emlearn/eml_net.h:eml_net_expit"]}
{"id": "C37", "title": "Keras conversion preserves the function", "statement": "convert_keras of a Sequential model yields layers whose composition is the function of the Keras model (Dense, Activation, ReLU, Softmax, Dropout layers), or raises.", "quantifier": "every sequence of supported layers", "why_tests_cant": "All layer sequences.", "anchors": ["emlearn/net.py:convert_keras", "emlearn/net.py:from_keras_activation"]}
{"id": "C38", "title": "IIR filter computes its difference equation for every stream", "statement": "With zero initial state, feeding any stream sample by sample through eml_iir_filter outputs, in exact arithmetic, the cascade of second-order sections y[n]=b0x[n]+b1x[n-1]+b2x[n-2]-a1y[n-1]-a2y[n-2]; splitting the stream into blocks makes no difference, and two filters with separate state do not influence each other.", "quantifier": "every coefficient set, number of stages and stream", "why_tests_cant": "Unbounded streams and states.", "anchors": ["emlearn/eml_iir.h:eml_iir_filter", "emlearn/eml_iir.h:eml_biquad_tdf2", "emlearn/eml_iir.h:eml_iir_check"]}
{"id": "C39", "title": "FFT computes the discrete Fourier transform", "statement": "For every n that is a power of two, eml_fft_forward with a table from eml_fft_fill replaces (real, imag), in exact arithmetic, by the DFT X[k]=sum x[j] exp(-2 pi i jk/n); for any other n or table size it returns EmlSizeMismatch and leaves the buffers unchanged; all accesses are in bounds.", "quantifier": "every n, every input", "why_tests_cant": "All sizes and vectors.", "anchors": ["emlearn/eml_fft.h:eml_fft_forward", "emlearn/eml_fft.h:eml_fft_fill"]}
{"id": "C40", "title": "Bit reversal is a permutation", "statement": "reverse_bits(.,levels) is an involution on 0..2^levels-1, so the in-place swap loop applies exactly that permutation.", "quantifier": "every number of levels and index", "why_tests_cant": "All sizes.", "anchors": ["emlearn/eml_fft.h:reverse_bits", "emlearn/eml_fft.h:eml_fft_forward"]}
{"id": "C41", "title": "Sparse filterbank equals the dense filterbank", "statement": "Reducing a spectrum with the sparse representation built by sparse_filterbank (in Python and in C) gives the matrix-vector product with the dense filterbank.", "quantifier": "every filterbank matrix and spectrum", "why_tests_cant": "Fails only for filters with interior zeros or empty filters.", "anchors": ["emlearn/signal.py:sparse_filterbank", "emlearn/signal.py:sparse_filterbank_reduce", "emlearn/eml_audio.h:eml_sparse_filterbank"]}
{"id": "C42", "title": "Mel filter reads stay inside the spectrum", "statement": "eml_audio_melspec reads only spec[0..length-1] and writes only mels[0..n_mels-1], or returns an error.", "quantifier": "every parameter set and bin placement", "why_tests_cant": "Off-by-one depends on parameters near Nyquist.", "anchors": ["emlearn/eml_audio.h:eml_audio_melspec"]}
{"id": "C43", "title": "Mahalanobis distance and outlier decision", "statement": "eml_mahalanobis_distance_squared equals (x-m)^T P (x-m) in exact arithmetic and equals the Python squared_mahalanobis_distance for every P (symmetric or not); eml_elliptic_envelope_predict returns 1 exactly when -distance is below the boundary, and Python predict() gives the same inlier/outlier decision.", "quantifier": "every vectors, matrix and boundary", "why_tests_cant": "All dimensions and boundary cases.", "anchors": ["emlearn/eml_distance.h:eml_mahalanobis_distance_squared", "emlearn/eml_distance.h:eml_elliptic_envelope_predict", "emlearn/distance.py:squared_mahalanobis_distance", "emlearn/distance.py:Wrapper.predict"]}
{"id": "C44", "title": "Gaussian mixture scores", "statement": "After convert_to_full, eml_mixture_predict_log_proba computes, in exact arithmetic, for each component the log weighted density with the original (full/tied/diag/spherical) precision; eml_mixture_score is the log of the sum of their exponentials and eml_mixture_predict_proba returns non-negative responsibilities that sum to 1.", "quantifier": "every model of each covariance type, every input", "why_tests_cant": "All dimensions, component counts and inputs.", "anchors": ["emlearn/eml_mixture.h:eml_mixture_predict_log_proba", "emlearn/eml_mixture.h:eml_mixture_score", "emlearn/eml_mixture.h:eml_mixture_predict_proba", "emlearn/eml_mixture.h:eml_logsumexp", "emlearn/mixture.py:convert_to_full"]}
{"id": "C45", "title": "C feature quantiser saturates and counts", "statement": "eml_quantizer_check_forward_int16 writes for every value the truncated scaled value clamped to [-32767,32767], reports exactly the numbers of values below/above the range, is monotone for positive scales, never performs an out-of-range float-to-int conversion unless a scaled value is NaN, and errors on mismatched lengths without writing; inverse after forward is within 1+1/512 steps (the excess is float32 rounding) of every in-range value, for scales of at least 2^-100.", "quantifier": "every float32 scale and values", "why_tests_cant": "All floats including infinities and NaN.", "anchors": ["emlearn/eml_quantizer.h:eml_quantizer_check_forward_int16", "emlearn/eml_quantizer.h:eml_quantizer_inverse_int16"]}
{"id": "C46", "title": "Python Quantizer", "statement": "Quantizer.transform always yields values representable in the target integer dtype within [-out_max,out_max], is monotone, and inverse_transform(transform(x)) is within one step (1/scale) of clip(x).", "quantifier": "every fitted scale, every value, every integer dtype", "why_tests_cant": "The failing cases are at the clip limit of 64-bit types.", "anchors": ["emlearn/preprocessing/quantizer.py:Quantizer"]}
{"id": "C47", "title": "Pareto front", "statement": "is_pareto_efficient_simple marks a point iff no other point is at least as good in every cost and better in one, keeping exactly the first of identical points; find_pareto_front additionally keeps only rows meeting min_performance.", "quantifier": "every finite set of cost vectors, in any order", "why_tests_cant": "The algorithm mutates the mask while iterating; all orders matter.", "anchors": ["emlearn/evaluate/pareto.py:is_pareto_efficient_simple", "emlearn/evaluate/pareto.py:find_pareto_front"]}
{"id": "C48", "title": "Accepted names are C identifiers", "statement": "Every name accepted by assert_valid_identifier is a C identifier ([_A-Za-z][_A-Za-z0-9]*) that is not a C89..C23 keyword, and every such identifier is accepted.", "quantifier": "every string", "why_tests_cant": "All strings; the failing one ends in a newline.", "anchors": ["emlearn/cgen.py:assert_valid_identifier", "emlearn/creserved.py:RESERVED_WORDS"]}
{"id": "C49", "title": "Generated array initialisers denote the given values", "statement": "array_declare emits exactly `size` initialisers, raises when size and number of values differ, and for integer dtypes reading the emitted decimal text back gives the (truncated) values in order; float constants are within 0.5e-6 of the value.", "quantifier": "every list of finite values (integers up to 2^53 when the dtype is float)", "why_tests_cant": "All values and lengths.", "anchors": ["emlearn/cgen.py:array_declare", "emlearn/cgen.py:constant"]}
{"id": "C50", "title": "Test harness delivers rows unchanged", "statement": "The compiled classifier used by predict() receives, for every row of at most 256 values whose text fits the line buffer, exactly one call with exactly the row's fields in order; integer features of int16 models arrive exactly.", "quantifier": "every matrix of rows", "why_tests_cant": "Line-buffer splits and tokenisation depend on lengths; all int16 values.", "anchors": ["emlearn/eml_test.h:eml_test_read_csv", "emlearn/eml_test.h:eml_test_parse_csv_line", "emlearn/common.py:run_classifier"]}
{"id": "C51", "title": "Error strings name the error", "statement": "eml_error_str gives for each EmlError a text naming that error, and a fixed text for any other code.", "quantifier": "every integer error code", "why_tests_cant": "All codes (enum and table are maintained separately).", "anchors": ["emlearn/eml_common.h:eml_error_str", "emlearn/eml_common.h:EmlError"]}
{"id": "C52", "title": "Vector copy stays in bounds", "statement": "eml_vector_set(dest,source,location) either returns a negative code and changes nothing, or copies source into dest at location, leaving the rest of dest unchanged and accessing nothing outside either vector.", "quantifier": "every pair of vectors and location", "why_tests_cant": "All lengths and offsets including negative ones.", "anchors": ["emlearn/eml_vector.h:eml_vector_set", "emlearn/eml_vector.h:eml_vector_view"]}
{"id": "C53", "title": "Buffer check of the nearest-neighbours model", "statement": "eml_neighbors_check returns EmlOk exactly when the data, labels and distances buffers are large enough for max_items items.", "quantifier": "every model and every buffer length", "why_tests_cant": "Lengths are passed through int16_t; only some lengths expose the wrap.", "anchors": ["emlearn/eml_neighbors.h:eml_neighbors_check"]}
{"id": "C54", "title": "CSV rows are written whole", "statement": "eml_csv_writer_write_data either appends exactly one line with the texts of all values, separated by commas, or returns an error and writes nothing.", "quantifier": "every stream content, row and number formatter", "why_tests_cant": "Depends on the printed length of every value.", "anchors": ["emlearn/eml_csv.h:eml_csv_writer_write_data"]}
{"id": "C55", "title": "CSV header is read whole", "statement": "eml_csv_reader_read_header returns EmlOk only if the whole header line was read, with every name in order, and leaves the reader at the first data line.", "quantifier": "every header, buffer length and columns length", "why_tests_cant": "Only buffers shorter than the header show the loss.", "anchors": ["emlearn/eml_csv.h:eml_csv_reader_read_header"]}
{"id": "C56", "title": "Generated Naive Bayes table", "statement": "The generated EmlBayesModel has n_classes*n_features summaries; the one at class*n_features+feature holds mean, standard deviation and log2 of it as Q16.16 (x*2^16, fraction dropped), for all numbers below 32768 in magnitude.", "quantifier": "every fitted model", "why_tests_cant": "Tests compile a few models.", "anchors": ["emlearn/bayes.py:generate_c", "emlearn/bayes.py:c_tofixed", "emlearn/eml_fixedpoint.h:EML_Q16_FROMFLOAT"]}
{"id": "C57", "title": "The Python IIR binding is the filter", "statement": "emlearn's iirfilter(sos, data) runs the cascade of the sections given by the rows of sos, from zero state, over data, for every (n,6) matrix, and raises for a matrix of any other shape.", "quantifier": "every matrix and every stream", "why_tests_cant": "Tests use six columns only.", "anchors": ["bindings/eml_signal.cpp:iirfilter_py", "emlearn/eml_iir.h:eml_iir_filter"]}
{"id": "C58", "title": "Outlier detection rejects rows of the wrong length", "statement": "A row whose number of values differs from the model's is reported as an error by eml_elliptic_envelope_predict and by the Python wrapper, never as an inlier or outlier.", "quantifier": "every model and row", "why_tests_cant": "Only wrong-length rows show it; error codes and answers share one integer.", "anchors": ["emlearn/eml_distance.h:eml_elliptic_envelope_predict", "emlearn/distance.py:generate_code", "emlearn/distance.py:Wrapper.predict"]}
{"id": "C59", "title": "Mixture predict gives the most responsible component", "statement": "Wrapper.predict of a converted Gaussian mixture returns a component whose responsibility for the row is greatest.", "quantifier": "every model and row", "why_tests_cant": "Depends on how the responsibilities are printed; only near ties show it.", "anchors": ["emlearn/mixture.py:Wrapper.predict", "emlearn/mixture.py:build_executable"]}
{"id": "C60", "title": "Mixture inference checks the number of values", "statement": "eml_mixture_predict_log_proba, score and predict_proba return an error when values_length differs from n_features, and read nothing outside the values.", "quantifier": "every model and every values_length", "why_tests_cant": "Tests pass rows of the right length.", "anchors": ["emlearn/eml_mixture.h:eml_mixture_predict_log_proba"]}
{"id": "C61", "title": "rfft gives the real part of the DFT", "statement": "rfft(x) of a signal whose length is a power of two is, in exact arithmetic, the real part of its discrete Fourier transform; every other length raises.", "quantifier": "every signal", "why_tests_cant": "All lengths and signals.", "anchors": ["bindings/eml_audio.cpp:rfft_py", "emlearn/eml_fft.h:eml_fft_forward"]}
{"id": "C62", "title": "Power spectrum", "statement": "eml_audio_power_spectrogram writes |rfft[i]|^2/n_fft for i = 0..n_fft/2 and nothing else when rfft is longer than 1+n_fft/2 and out has that length, and otherwise returns SizeMismatch and writes nothing.", "quantifier": "every spectrum, vector placement and n_fft", "why_tests_cant": "All sizes and placements.", "anchors": ["emlearn/eml_audio.h:eml_audio_power_spectrogram"]}
{"id": "C63", "title": "The mel filterbank is triangular on the mel scale", "statement": "melfilter gives, in exact arithmetic, the response of n_mels triangular filters whose corners are n_mels+2 frequencies evenly spaced on the (HTK) mel scale from fmin to fmax.", "quantifier": "every spectrum and parameters with fmax at most half the sampling rate", "why_tests_cant": "Only bins just above a center show the error.", "anchors": ["emlearn/eml_audio.h:eml_audio_melspec", "emlearn/eml_audio.h:eml_audio_mel_center", "bindings/eml_audio.cpp:melfilter"]}
{"id": "C64", "title": "Mel spectrogram of a block", "statement": "melspectrogram(x) is the mel filterbank applied to the power spectrum of the Hann-windowed block.", "quantifier": "every block and parameters", "why_tests_cant": "All blocks; the existing test is disabled.", "anchors": ["emlearn/eml_audio.h:eml_audio_melspectrogram", "bindings/eml_audio.cpp:melspectrogram"]}
{"id": "C65", "title": "Mean and Hann window", "statement": "eml_signal_mean is the sum over the length and eml_signal_hann_apply multiplies sample i by the symmetric Hann window (1-cos(2 pi i/(n-1)))/2, for every length from 2 on, in exact arithmetic.", "quantifier": "every signal", "why_tests_cant": "All lengths.", "anchors": ["emlearn/eml_vector.h:eml_signal_mean", "emlearn/eml_vector.h:eml_signal_hann_apply"]}
{"id": "C66", "title": "Quantizer learned from data", "statement": "After fit on data, transform maps every training value to within one step of x*out_max/largest, and the value of largest magnitude exactly to plus or minus out_max.", "quantifier": "every training set of finite values", "why_tests_cant": "Depends on rounding of the division for every data set.", "anchors": ["emlearn/preprocessing/quantizer.py:Quantizer.fit", "emlearn/preprocessing/quantizer.py:Quantizer.transform"]}
{"id": "C67", "title": "Non-finite numbers are not written as constants", "statement": "array_declare raises when a value is NaN or infinite; it never emits text that is not a C constant.", "quantifier": "every list of values and dtype", "why_tests_cant": "Models with NaN or infinite parameters are rare.", "anchors": ["emlearn/cgen.py:constant", "emlearn/cgen.py:array_declare"]}
{"id": "C68", "title": "Generated declarations", "statement": "constant_declare, array_declare and struct_declare emit one C declaration with the given modifiers, type, name, size and contents.", "quantifier": "every argument", "why_tests_cant": "All names, types, modifiers and contents.", "anchors": ["emlearn/cgen.py:constant_declare", "emlearn/cgen.py:array_declare", "emlearn/cgen.py:struct_declare"]}
{"id": "C69", "title": "Fixed-point arrays", "statement": "array_declare_fixedpoint emits for each value x the 32-bit integer nearest below x*2^fraction_bits in magnitude, and raises for formats that are not 32 bits wide and values that do not fit.", "quantifier": "every format and list of finite values", "why_tests_cant": "Depends on every value and format.", "anchors": ["emlearn/cgen.py:array_declare_fixedpoint", "emlearn/fixedpoint.py:FixedPointFormat"]}
{"id": "C70", "title": "predict gives one result per row from that row, or raises", "statement": "CompiledClassifier.predict (and regress) either returns exactly one result per row, each being the C function's value for that row (floats to six decimals, integers exactly), or raises; rows whose text does not fit the line buffer always raise.", "quantifier": "every matrix, C function and output type", "why_tests_cant": "Line splitting depends on the text length of every row.", "anchors": ["emlearn/common.py:CompiledClassifier.predict", "emlearn/common.py:run_classifier", "emlearn/eml_test.h:eml_test_read_csv"]}
{"id": "C71", "title": "predict_proba gives the probabilities of each row, or raises", "statement": "CompiledClassifier.predict_proba either returns a matrix whose entry (i, c) is the c-th output of the C function called for row i (to six decimals), no entry left unassigned, or raises.", "quantifier": "every matrix, C function and number of classes", "why_tests_cant": "Line splitting depends on the text length of every row; unassigned entries are arbitrary memory.", "anchors": ["emlearn/common.py:CompiledClassifier.predict_proba", "emlearn/common.py:build_classifier", "emlearn/eml_test.h:eml_test_read_csv"]}
{"id": "C72", "title": "Feature values arrive as the nearest float32", "statement": "The compiled classifier receives each feature value as the float32 nearest to it.", "quantifier": "every matrix", "why_tests_cant": "All values, small ones in particular.", "anchors": ["emlearn/common.py:run_classifier", "emlearn/eml_test.h:eml_test_parse_csv_line"]}
{"id": "C73", "title": "predict returns the majority class of each row", "statement": "predict(X) of a converted tree classifier (hard voting, integer features within int16_t) returns one class per row of X: the lowest-numbered class with the most votes among the trees, each tree voting for the largest entry of the leaf reached by feature < int(threshold); for inline and loadable code, through the whole chain of text and compiled program.", "quantifier": "every fitted forest and every matrix of integers within int16_t", "why_tests_cant": "All forests and matrices; tests run a few.", "anchors": ["emlearn/trees.py:Wrapper.predict", "emlearn/trees.py:generate_c_inlined", "emlearn/trees.py:generate_c_loadable", "emlearn/common.py:CompiledClassifier.predict", "emlearn/eml_trees.h:eml_trees_predict"]}
{"id": "C74", "title": "predict_proba returns the share of the votes", "statement": "predict_proba(X) of a converted hard-voting tree classifier returns for each row and class the number of trees voting for it divided by the number of trees, within 1e-6.", "quantifier": "every fitted forest and every matrix of integers within int16_t", "why_tests_cant": "Depends on float rounding and on printing, for all counts.", "anchors": ["emlearn/trees.py:Wrapper.predict_proba", "emlearn/common.py:CompiledClassifier.predict_proba", "emlearn/eml_trees.h:eml_trees_predict_proba"]}
{"id": "C75", "title": "predict of a regressor returns the mean of the tree values", "statement": "predict(X) of a converted regressor with N trees and leaf values up to B in size returns for each row the mean of the values of the leaves reached, within (N+6)B/2^24 + 2e-6, for inline and loadable code.", "quantifier": "every fitted forest of up to 8388608 trees, leaf values up to 2^50, every matrix of integers within int16_t", "why_tests_cant": "Rounding errors accumulate over the trees; tests see a few values.", "anchors": ["emlearn/trees.py:Wrapper.predict", "emlearn/trees.py:generate_c_inlined", "emlearn/eml_trees.h:eml_trees_regress1"]}
{"id": "C76", "title": "Leaf values are kept", "statement": "The generated code of a regressor holds each leaf value as the float32 nearest to it.", "quantifier": "every leaf value", "why_tests_cant": "Small values are rarely tested.", "anchors": ["emlearn/trees.py:generate_c_inlined", "emlearn/trees.py:leaves_to_bytelist", "emlearn/cgen.py:constant"]}
{"id": "C77", "title": "Integer features: predictions are those of scikit-learn's walk away from the thresholds", "statement": "With int16_t features, predict returns the majority class (or the mean value, for regressors) of the leaves scikit-learn's own walk (feature <= threshold) reaches, for every row in which no feature a tree decides on equals int(threshold) while being at most the threshold.", "quantifier": "every fitted forest and every such matrix", "why_tests_cant": "All rows and thresholds.", "anchors": ["emlearn/trees.py:Wrapper.predict", "emlearn/trees.py:generate_c_inlined", "emlearn/eml_trees.h:eml_trees_predict_tree"]}
{"id": "C78", "title": "Float features: predictions are those of scikit-learn's walk away from the thresholds", "statement": "With dtype='float', predict, predict_proba and regression decide as scikit-learn does for every row in which each feature x and threshold t a tree decides on differ by more than 1e-6 + (|x|+|t|)/2^24; on every row each decision is x' < t' with x' the value printed with 8 decimals and t' the threshold printed with 6.", "quantifier": "every fitted forest with thresholds up to 2^126 and every matrix whose rows fit the line buffer", "why_tests_cant": "All values near thresholds.", "anchors": ["emlearn/trees.py:Wrapper.predict", "emlearn/trees.py:generate_c_inlined", "emlearn/cgen.py:constant", "emlearn/common.py:run_classifier"]}
{"id": "C79", "title": "Predictions are those of scikit-learn's walk on every row", "statement": "A converted model follows, for every row, the branches scikit-learn follows (feature <= threshold goes left).", "quantifier": "every fitted tree and row", "why_tests_cant": "Only rows with a feature equal to a threshold (or to its integer part) show the difference.", "anchors": ["emlearn/trees.py:generate_c_inlined", "emlearn/eml_trees.h:eml_trees_predict_tree"]}
{"id": "C80", "title": "predict of a converted kNN is the vote of the k nearest training rows", "statement": "predict(X) of a converted KNeighborsClassifier (integer training data and features within int16_t, labels 0..9, all distances below 2^15) returns one label per row of X: the lowest-numbered label with the most votes among k training rows such that no other training row has a smaller integer part of the Euclidean distance; the result for a row does not depend on the rows before.", "quantifier": "every training set up to 32767 rows of up to 127 columns, every k and every such matrix", "why_tests_cant": "All data sets and matrices; ties and rounding of the distance.", "anchors": ["emlearn/neighbors.py:Wrapper.predict", "emlearn/neighbors.py:c_generate_neighbors", "emlearn/eml_neighbors.h:eml_neighbors_predict", "emlearn/common.py:CompiledClassifier.predict"]}
{"id": "C81", "title": "The training data is in the converted kNN model", "statement": "Converting a KNeighborsClassifier either raises or stores every training value, every label and k unchanged; unsupported metrics, weights and methods raise.", "quantifier": "every training set and setting", "why_tests_cant": "All values, fractions in particular.", "anchors": ["emlearn/neighbors.py:Wrapper.__init__", "emlearn/neighbors.py:c_generate_neighbors", "emlearn/cgen.py:constant"]}
{"id": "C82", "title": "A converted kNN returns labels of the training data or raises", "statement": "Every result of predict(X) of a converted KNeighborsClassifier is a label of the training data, or predict raises.", "quantifier": "every converted model and matrix", "why_tests_cant": "Error paths inside the compiled program.", "anchors": ["emlearn/neighbors.py:Wrapper.predict", "emlearn/eml_neighbors.h:eml_neighbors_predict"]}
{"id": "C83", "title": "A model predicts with its own code, whatever else happens in the session", "statement": "predict and predict_proba of a converted model give what they would give if it were the only model of the session, whichever models are converted or used before and in between.", "quantifier": "every history of conversions (also failing ones) and predictions", "why_tests_cant": "Needs histories with several models alive; tests use one at a time.", "anchors": ["emlearn/common.py:CompiledClassifier", "emlearn/common.py:build_classifier", "emlearn/bayes.py:Wrapper", "emlearn/net.py:Wrapper", "emlearn/neighbors.py:Wrapper", "emlearn/distance.py:Wrapper"]}
{"id": "C84", "title": "A tree model predicts with its own code in every session", "statement": "predict and predict_proba of a converted tree model give what they would give if it were the only model of the session, whichever models are converted or used before and in between.", "quantifier": "every history of conversions (also failing ones) and predictions", "why_tests_cant": "Needs histories with several models alive.", "anchors": ["emlearn/trees.py:Wrapper.predict", "emlearn/trees.py:Wrapper._build_classifier", "emlearn/common.py:CompiledClassifier"]}
{"id": "C85", "title": "Predictions are labels of the training data", "statement": "predict of a converted classifier returns labels the estimator was fitted with (scikit-learn encodes them as 0, 1, ... and decodes in its own predict).", "quantifier": "every label set", "why_tests_cant": "Tests use labels that are 0..n-1 already.", "anchors": ["emlearn/trees.py:Wrapper.predict", "emlearn/neighbors.py:Wrapper.predict"]}
{"id": "C86", "title": "Rounding errors of relu and identity networks", "statement": "A network of relu and identity layers run in float32 gives, for every output, a finite number within rel(g) * mag of the output computed on real numbers from the same weights and input, where g is the number of roundings on the longest path (the sum over layers of inputs + 2), rel(g) = (1 + 2^-24)^g - 1 (at most 2 g 2^-24), and mag is the output computed with absolute values; eml_net_infer, eml_net_regress and eml_net_regress1 all give it, and eml_net_predict names the class of the largest exact output whenever it leads by more than the two bounds (with one output: compares correctly with 1/2 whenever it is further from 1/2 than the bound).", "quantifier": "all layer counts and sizes, all finite float32 weights, biases and inputs that stay below 2^100, any class", "why_tests_cant": "the bound is over all weights and inputs; no test set covers the rounding of every combination", "anchors": ["emlearn/eml_net.h:eml_net_forward", "emlearn/eml_net.h:eml_net_infer", "emlearn/eml_net.h:eml_net_predict", "emlearn/eml_net.h:eml_net_regress"]}
{"id": "C87", "title": "Rounding errors of the Mahalanobis distance and the outlier decision", "statement": "eml_mahalanobis_distance_squared in float32 is within rel(2n+4) times the distance computed with absolute values of the exact squared Mahalanobis distance; and eml_elliptic_envelope_predict gives exactly the decision of exact arithmetic (outlier iff -distance < offset) whenever the exact distance is further than that bound from the offset.", "quantifier": "all precision matrices, means, offsets and feature vectors of finite float32 numbers below 2^100, dimension below 46341", "why_tests_cant": "quantifies over all real-valued geometry; rounding near the boundary cannot be enumerated", "anchors": ["emlearn/eml_distance.h:eml_mahalanobis_distance_squared", "emlearn/eml_distance.h:eml_elliptic_envelope_predict"]}
{"id": "C88", "title": "Networks with any activation, approximate weights and inputs", "statement": "Suppose the weights and inputs in use differ by known amounts from the intended real ones, and the C library's expf, logf and tanhf have known errors. Then every output of eml_net_infer and (with three or more outputs) every probability of eml_net_predict_proba is within an explicitly computed bound of the output of the intended network on the intended input, for relu, identity, logistic, tanh and softmax layers; eml_net_predict names the intended network's class whenever it leads by more than the bounds.", "quantifier": "all networks, all intended weights and inputs, all float32 approximations of them, all libm implementations within the stated errors", "why_tests_cant": "error propagation through layers holds for all weights and inputs or not at all", "anchors": ["emlearn/eml_net.h:eml_net_infer", "emlearn/eml_net.h:eml_net_expit", "emlearn/eml_net.h:eml_net_softmax", "emlearn/eml_net.h:eml_net_predict_proba"]}
{"id": "C89", "title": "Converted network regressors return the values of the fitted network", "statement": "A fitted network with one output (MLPRegressor, or Keras layers) converted with return_type='regressor' and the method left out or 'loadable' returns from predict(X) one finite number per row, within an explicit bound of the fitted network evaluated on real numbers at that row. The bound accounts for the weights written with six decimals, the features sent with eight, float32 rounding in every layer, the C library's expf, logf and tanhf, and the six decimals of the answer. MLP estimators are converted layer by layer (hidden activation everywhere but the last layer); without a hidden layer ValueError.", "quantifier": "all networks with finite weights up to 2^126 and layers up to 8388606 inputs, all matrices of such features that fit the line buffer, all C libraries within the stated errors, away from overflow", "why_tests_cant": "the bound is over all weights, inputs and library implementations; tests compare a few fitted models", "anchors": ["emlearn/net.py:Wrapper.predict", "emlearn/net.py:convert_sklearn_mlp", "emlearn/net.py:c_generate_net_loadable", "emlearn/eml_net.h:eml_net_regress1", "emlearn/common.py:CompiledClassifier.regress"]}
{"id": "C90", "title": "Converted network classifiers return the class of the fitted network", "statement": "A fitted network converted with return_type='classifier' returns from predict(X), for every accepted method, exactly one class per row: with one output 1 if the exact output is above 1/2 and 0 if below, whenever it is further from 1/2 than the error bound of C89; with more outputs the index of the largest exact output, whenever it leads every other by more than the two bounds.", "quantifier": "all networks, matrices and C libraries as in C89, all classes", "why_tests_cant": "the margin condition quantifies over real-valued outputs of all networks", "anchors": ["emlearn/net.py:Wrapper.predict", "emlearn/eml_net.h:eml_net_predict", "emlearn/common.py:CompiledClassifier.predict"]}
{"id": "C91", "title": "Converted network classifiers return the probabilities of the fitted network", "statement": "With three or more outputs predict_proba(X) returns for every row and class a number within the bound of C89 of the fitted network's output; with one output y it returns numbers within the bound of 1 - y and y.", "quantifier": "all networks with one output or at least three, all matrices and C libraries as in C89", "why_tests_cant": "all weights and inputs", "anchors": ["emlearn/net.py:Wrapper.predict_proba", "emlearn/eml_net.h:eml_net_predict_proba", "emlearn/common.py:CompiledClassifier.predict_proba"]}
{"id": "C92", "title": "Options of convert for networks", "statement": "A well-formed network is accepted exactly with return_type 'classifier' or 'regressor' and the method left out or 'loadable', or with return_type 'classifier' and method 'inline', without use_fixedpoint; all accepted methods predict the same classes; other methods are a ValueError; an activation function that is not one of the five is never accepted.", "quantifier": "all networks, method strings, return types and inputs", "why_tests_cant": "all combinations of options and all networks", "anchors": ["emlearn/net.py:Wrapper.__init__", "emlearn/net.py:c_activation_function", "emlearn/convert.py:convert"]}
{"id": "C93", "title": "A network refuses rows with a wrong number of columns", "statement": "predict(X) and predict_proba(X) of a converted network raise when X has another number of columns than the network has inputs.", "quantifier": "all networks and all matrices of another width", "why_tests_cant": "error codes of the compiled program on every shape", "anchors": ["emlearn/net.py:Wrapper.predict", "emlearn/eml_net.h:eml_net_infer", "emlearn/common.py:CompiledClassifier"]}
{"id": "C94", "title": "Probabilities of networks with two outputs", "statement": "With two outputs (a softmax over two classes, as Keras models have) predict_proba(X) returns the two outputs, in order.", "quantifier": "all networks with two outputs and all inputs", "why_tests_cant": "all weights and inputs", "anchors": ["emlearn/net.py:Wrapper.predict_proba", "emlearn/eml_net.h:eml_net_predict_proba"]}
{"id": "C95", "title": "Networks can be converted with use_fixedpoint", "statement": "Some well-formed network is accepted by the network converter with use_fixedpoint=True.", "quantifier": "all networks and options", "why_tests_cant": "impossibility over all networks", "anchors": ["emlearn/net.py:Wrapper.__init__", "emlearn/net.py:c_generate_net_inline"]}
{"id": "C96", "title": "Benchmark data is the full-period Park-Miller sequence", "statement": "The generator multiplies by 48271 modulo 2^31-1 although it only uses 32-bit unsigned arithmetic; from state 1 it takes all 2^31-2 states before repeating; eml_benchmark_fill writes exactly the first n elements, element i being the nearest float32 to 48271^(i+1) mod (2^31-1), all finite, and nothing else.", "quantifier": "all states, all pairs of positions in the period, all buffers and lengths", "why_tests_cant": "the period has two billion states", "anchors": ["emlearn/eml_benchmark.h:eml_lcg_parkmiller", "emlearn/eml_benchmark.h:eml_benchmark_fill"]}
{"id": "C97", "title": "Program sizes are those printed by size -A", "statement": "get_program_size reports flash as .text + .data + .rodata and RAM as .data + .bss for every list of sections, in every order and column layout; missing sections other than .text count zero; without .text it raises.", "quantifier": "all section lists with distinct names, all column layouts of the output", "why_tests_cant": "all texts the tool can print", "anchors": ["emlearn/evaluate/size.py:parse_binutils_size_a_output", "emlearn/evaluate/size.py:run_binutils_size"]}
{"id": "C98", "title": "The compute cost estimate is proportional to the number of decision nodes evaluated", "statement": "compute_cost_estimate(model, X) is a constant times the number of decision nodes evaluated for a row of X, averaged over the rows and added over the trees.", "quantifier": "all tree models and datasets", "why_tests_cant": "all trees and datasets", "anchors": ["emlearn/evaluate/trees.py:compute_cost_estimate"]}
{"id": "C99", "title": "Evaluation time of a converted tree", "statement": "For every input the loop of the generated loadable code runs, for each tree, exactly as many passes as the fitted tree has decision nodes on the path of that input (one if the tree is a single leaf), which is never more than the depth of the tree.", "quantifier": "all convertible tree models (hard, soft, regression), all trees in them, all integer feature vectors", "why_tests_cant": "running time on every input of every model", "anchors": ["emlearn/trees.py:flatten_forest", "emlearn/trees.py:remove_duplicate_leaves", "emlearn/trees.py:generate_c_nodes", "emlearn/eml_trees.h:eml_trees_predict_tree"]}
{"id": "C100", "title": "Generated filterbank declarations hold the filterbank", "statement": "For every sparse filterbank with finite coefficients and every valid identifier, a C compiler reads from the text of sparse_filterbank_serialize exactly the constants and arrays <name>_bands, _starts, _ends, _length with the given integers and <name>_lut with each coefficient within half a millionth, in order, plus the optional parameters that were given; unequal numbers of starts and ends raise AssertionError.", "quantifier": "all filterbanks, names and options", "why_tests_cant": "all tables of all sizes and values", "anchors": ["emlearn/signal.py:sparse_filterbank_serialize", "emlearn/cgen.py:array_declare", "emlearn/cgen.py:constant_declare"]}
{"id": "C101", "title": "Generated window files hold the window", "statement": "For every window, length, valid name and line width, a C compiler reads from the file written by eml-window-function the array <name> with each value within half a millionth and the constant <name>_length, and nothing else.", "quantifier": "all windows, names and line widths", "why_tests_cant": "all tables of all sizes; wrapping depends on every character of the text", "anchors": ["emlearn/tools/window_function.py:window_function", "emlearn/tools/window_function.py:main"]}
{"id": "C102", "title": "Generated mel filterbank files hold the filterbank and its parameters", "statement": "For every filterbank, valid name, line width and parameters, a C compiler reads from the file written by eml-mel-filterbank the filterbank, the frequencies, and the FFT length, samplerate, lowest and highest frequency used.", "quantifier": "all filterbanks, names, line widths and parameters", "why_tests_cant": "all tables of all sizes; wrapping depends on every character of the text", "anchors": ["emlearn/tools/mel_filterbank.py:mel_filterbank", "emlearn/tools/mel_filterbank.py:main"]}
{"id": "C103", "title": "Generated table files respect the line width", "statement": "No line of the code generated by the two tools is longer than --linewrap, whatever names and values; a width below 1 is a ValueError; wrapping keeps the words of the text exactly when every word fits in a line.", "quantifier": "all names, values and widths, all texts", "why_tests_cant": "all texts of all lengths", "anchors": ["emlearn/tools/window_function.py:window_function", "emlearn/tools/mel_filterbank.py:mel_filterbank"]}
{"id": "C104", "title": "A filterbank with the printed coefficients is close to the dense product", "statement": "In exact arithmetic eml_sparse_filterbank, run with coefficients within half a millionth of those sparse_filterbank computed, returns the dense product of the filters with the input within half a millionth of the sum of the absolute inputs.", "quantifier": "all contiguous filterbanks, inputs and admissible printed coefficients", "why_tests_cant": "all filterbanks and inputs", "anchors": ["emlearn/eml_audio.h:eml_sparse_filterbank", "emlearn/signal.py:sparse_filterbank", "bindings/eml_audio.cpp:sparse_filterbank"]}
{"id": "C105", "title": "The options of eml-mel-filterbank can be turned off", "statement": "--normalize False and --htk False turn the option off; without the options filters are normalised and not HTK style.", "quantifier": "all arguments of the two options", "why_tests_cant": "all argument texts", "anchors": ["emlearn/tools/mel_filterbank.py:parse"]}
{"id": "C106", "title": "A converted EllipticEnvelope returns the Mahalanobis distances of the estimator", "statement": "score_samples of a converted EllipticEnvelope returns, for every row whose calculation does not overflow float32, minus the squared Mahalanobis distance with the fitted location and precision, up to a bound made of the printed decimals and float32 rounding; mahalanobis returns the distance itself.", "quantifier": "all fitted estimators of every size, all datasets of finite rows", "why_tests_cant": "all estimators, all rows", "anchors": ["emlearn/distance.py:Wrapper.score_samples", "emlearn/distance.py:generate_code", "emlearn/eml_distance.h:eml_elliptic_envelope_predict"]}
{"id": "C107", "title": "A converted EllipticEnvelope decides as the estimator does away from the boundary", "statement": "predict returns 1 for rows whose minus distance exceeds offset_ by more than the error bound, -1 for rows where it is below by more than the bound, and one of the two otherwise.", "quantifier": "all fitted estimators, offsets and datasets", "why_tests_cant": "all estimators, all rows", "anchors": ["emlearn/distance.py:Wrapper.predict"]}
{"id": "C108", "title": "A converted EllipticEnvelope refuses rows with a wrong number of columns", "statement": "mahalanobis, score_samples and predict never return a result when a row has a wrong number of columns; they raise AssertionError at the first one.", "quantifier": "all datasets with at least one such row", "why_tests_cant": "all datasets", "anchors": ["emlearn/distance.py:squared_mahalanobis_distance", "emlearn/distance.py:Wrapper.mahalanobis"]}
{"id": "C109", "title": "Scoring finite rows with a converted EllipticEnvelope does not raise FloatingPointError", "statement": "mahalanobis, score_samples and predict do not raise for rows of finite numbers whose distance the generated program can compute.", "quantifier": "all finite rows and estimators", "why_tests_cant": "all magnitudes, including those where products underflow", "anchors": ["emlearn/distance.py:squared_mahalanobis_distance", "emlearn/bayes.py:numpy.seterr"]}
{"id": "C110", "title": "Methods accepted for EllipticEnvelope", "statement": "convert of an EllipticEnvelope works with the default method; an unknown method is a ValueError.", "quantifier": "all values of method", "why_tests_cant": "all values of method", "anchors": ["emlearn/distance.py:Wrapper.__init__", "emlearn/convert.py:convert"]}
{"id": "C111", "title": "The decision boundary in the generated code is offset_", "statement": "For every estimator and offset up to 2^126 the generated code compiles and its decision boundary is the float32 nearest to offset_, within 2^-23 relative error or 2^-140.", "quantifier": "all offsets", "why_tests_cant": "all float64 offsets and their decimal texts", "anchors": ["emlearn/distance.py:generate_code"]}
{"id": "C112", "title": "The fixed-point score of naive Bayes approximates the logarithm of the normal density", "statement": "For every value, mean and standard deviation that fit, the score the generated classifier gives a feature is log2 of the normal density, up to an error that grows with the square of the distance from the mean.", "quantifier": "all values, means and standard deviations in 16.16 fixed point", "why_tests_cant": "all 32 bit inputs, against a real function", "anchors": ["emlearn/eml_bayes.h:eml_bayes_logpdf", "emlearn/eml_bayes.h:eml_bayes_logpdf_std"]}
{"id": "C113", "title": "A converted GaussianNB returns a class of highest likelihood", "statement": "predict returns, for every row, a class of the estimator whose likelihood under the fitted normal distributions is the highest, up to the stated errors of the scores compared.", "quantifier": "all fitted estimators with any number of classes and features, all datasets", "why_tests_cant": "all estimators, all rows", "anchors": ["emlearn/bayes.py:Wrapper", "emlearn/bayes.py:generate_c", "emlearn/eml_bayes.h:eml_bayes_predict"]}
{"id": "C114", "title": "A converted GaussianNB returns the class of highest posterior probability, as the estimator does", "statement": "predict takes the class priors of the estimator into account.", "quantifier": "all fitted estimators and rows", "why_tests_cant": "all estimators, all rows", "anchors": ["emlearn/bayes.py:Wrapper.__init__"]}
{"id": "C115", "title": "What converting a GaussianNB refuses", "statement": "An unknown method is an error, so is a variance of zero, and so is a row with a wrong number of columns.", "quantifier": "all methods, estimators and rows", "why_tests_cant": "all values", "anchors": ["emlearn/bayes.py:Wrapper", "emlearn/eml_bayes.h:eml_bayes_predict"]}
{"id": "C116", "title": "A converted mixture scores like the fitted one", "statement": "score_samples of a converted GaussianMixture or BayesianGaussianMixture returns for every row the logarithm of the density of the fitted mixture, up to a stated error that covers the six printed decimals of the parameters, float32 arithmetic, the C library and the printed result.", "quantifier": "all fitted mixtures of any covariance type, any numbers of components and features, all sets of rows within range", "why_tests_cant": "the error must be bounded for all parameters and rows; tests compare a few with a loose tolerance", "anchors": ["emlearn/mixture.py:Wrapper.score_samples", "emlearn/mixture.py:build_executable", "emlearn/eml_mixture.h:eml_mixture_score"]}
{"id": "C117", "title": "A converted mixture gives the fitted probabilities", "statement": "predict_proba of a converted mixture returns for every row and component the probability of the component given the row, and predict_log_proba the logarithm of weight times density, up to stated errors.", "quantifier": "all fitted mixtures of any covariance type, all sets of rows within range", "why_tests_cant": "all parameters and rows", "anchors": ["emlearn/mixture.py:Wrapper.predict_proba", "emlearn/mixture.py:Wrapper.predict_log_proba", "emlearn/eml_mixture.h:eml_mixture_predict_proba"]}
{"id": "C118", "title": "A converted mixture predicts the most probable component", "statement": "predict of a converted mixture returns for every row a component of highest probability.", "quantifier": "all fitted mixtures, all sets of rows", "why_tests_cant": "all parameters and rows", "anchors": ["emlearn/mixture.py:Wrapper.predict", "emlearn/cgen.py:constant"]}
{"id": "C119", "title": "What a converted mixture refuses", "statement": "A row with a wrong number of columns, parameters that are infinite or not numbers, an unknown covariance type and an array of wrong dimensions are errors wherever they occur; the method option makes no difference.", "quantifier": "all fitted mixtures, all sets of rows", "why_tests_cant": "all positions of the bad row or number", "anchors": ["emlearn/mixture.py:Wrapper.__init__", "emlearn/mixture.py:convert_to_full", "emlearn/mixture.py:predict"]}
{"id": "C120", "title": "convert accepts the supported estimators and no others", "statement": "convert refuses with a ValueError every estimator whose class name (or explicit kind) is not one of the documented ones, fails for an object that does not have the attributes of its kind, and converts an estimator with an explicit kind as if its class had that name.", "quantifier": "all estimators, class names and options", "why_tests_cant": "all names and attribute sets; the class name is matched as text", "anchors": ["emlearn/convert.py:convert", "emlearn/trees.py:Wrapper.__init__"]}
{"id": "C121", "title": "convert, then predict", "statement": "For every supported estimator, predict of what convert returns gives the predictions of the fitted estimator: the majority class or mean value of the trees, the majority of the nearest neighbours, a class of highest likelihood, inside or outside of the envelope, a component of highest probability, the class of the network, each up to the stated error.", "quantifier": "all fitted estimators of each kind, all options that are accepted, all sets of rows within range", "why_tests_cant": "all parameters, options and rows, through one entry point", "anchors": ["emlearn/convert.py:convert", "emlearn/convert.py:Model.predict"]}
{"id": "C122", "title": "Regressors give regression values", "statement": "predict of a converted regressor returns values, not classes, with the default options.", "quantifier": "all fitted regressors, all rows", "why_tests_cant": "all estimators and rows", "anchors": ["emlearn/convert.py:convert", "emlearn/net.py:Wrapper.__init__"]}
{"id": "C123", "title": "An option is honoured or refused", "statement": "An option given to convert (method, dtype, return_type, leaf_bits, use_fixedpoint, any other keyword) has its effect, or is an error if the kind of model does not have it.", "quantifier": "all kinds of estimators, all combinations and values of options", "why_tests_cant": "all combinations", "anchors": ["emlearn/convert.py:convert"]}
{"id": "C124", "title": "The documented methods of a model", "statement": "The object returned by convert has predict_proba, giving the probabilities of the fitted estimator, and score_samples.", "quantifier": "all kinds of estimators, all sets of rows", "why_tests_cant": "all estimators and rows", "anchors": ["emlearn/convert.py:Model"]}
{"id": "C125", "title": "Keras models end to end", "statement": "For a Keras Sequential model of Dense, Activation, ReLU, Softmax and Dropout layers in which every activation layer follows a Dense layer without an activation of its own, the model returned by convert computes the layers of the Keras model one after the other: its classes where they are clear, its outputs and its regression values up to the stated error.", "quantifier": "all such models of any number and sizes of layers, all rows within range", "why_tests_cant": "all layer sequences, weights and rows", "anchors": ["emlearn/net.py:convert_keras", "emlearn/convert.py:convert"]}
{"id": "C126", "title": "The FFT is accurate in float32", "statement": "After eml_fft_fill for a length n = 2^m, eml_fft_forward in float32 gives finite numbers, each as a complex number within 2 m (e + 8*2^-24) n B of the discrete Fourier transform, where e bounds the error of cosf and sinf and B bounds the absolute value of the complex samples; likewise with any stored table.", "quantifier": "all power-of-two lengths up to 2^31, all signals whose magnitude is far from overflow and underflow, all tables near enough", "why_tests_cant": "the rounding errors of log2(n) stages must be bounded for all signals; tests compare one or two", "anchors": ["emlearn/eml_fft.h:eml_fft_fill", "emlearn/eml_fft.h:eml_fft_forward"]}
{"id": "C127", "title": "rfft is accurate in float32", "statement": "eml_audio.rfft of 2^m float32 samples of absolute value at most B returns the real parts of the discrete Fourier transform, within 2 m (e + 8*2^-24) n B.", "quantifier": "all lengths 2^m below 2^31, all samples", "why_tests_cant": "all signals and lengths", "anchors": ["bindings/eml_audio.cpp:rfft_py"]}
{"id": "C128", "title": "sparse_filterbank stays inside its arrays", "statement": "eml_audio.sparse_filterbank returns for filter i the sum of coefficient times input over the indices starts[i] to stops[i], and refuses indices outside of the input and too few coefficients.", "quantifier": "all index lists, coefficients and inputs", "why_tests_cant": "all indices, including ones outside", "anchors": ["bindings/eml_audio.cpp:sparse_filterbank_py", "emlearn/eml_audio.h:eml_sparse_filterbank"]}
{"id": "C129", "title": "Sparse filterbanks are accurate in float32", "statement": "Every answer of the sparse filterbank in float32 is within 2 (w + 1) 2^-24 of the exact sum, relative to the sum of the absolute values of its w products.", "quantifier": "all index lists inside the input, all finite coefficients and inputs that do not overflow", "why_tests_cant": "the rounding errors must be bounded for all inputs", "anchors": ["emlearn/eml_audio.h:eml_sparse_filterbank"]}
{"id": "C130", "title": "Window and mean are accurate in float32", "statement": "eml_signal_hann_apply multiplies sample i by (1 - cos(2 pi i / (n-1)))/2 up to a relative error of the error of cos plus 5*2^-24, and eml_signal_mean gives the mean up to (n+3) 2^-24 times the largest absolute value.", "quantifier": "all lengths from 2, all finite samples that do not overflow", "why_tests_cant": "all samples and lengths", "anchors": ["emlearn/eml_vector.h:eml_signal_hann_apply", "emlearn/eml_vector.h:eml_signal_mean"]}
{"id": "C131", "title": "The installed Arduino library is complete", "statement": "When install_arduino_library returns, the directory emlearn in the libraries directory has every file eml_*.h and VERSION.txt of the include directory with the same contents; no other file or directory is created or changed, even when the installation is interrupted or fails; and it returns whenever nothing is in the way.", "quantifier": "all file systems, all include and libraries directories, all interruption points", "why_tests_cant": "all directory contents and every point at which it can be interrupted", "anchors": ["emlearn/arduino/install.py:install_arduino_library"]}
{"id": "C132", "title": "An installed library is not overwritten by accident", "statement": "install_arduino_library without update raises and changes nothing if the library is already there; with update the library afterwards has the headers of the new version and no others.", "quantifier": "all file systems", "why_tests_cant": "all earlier contents of the library", "anchors": ["emlearn/arduino/install.py:install_arduino_library"]}
{"id": "C133", "title": "An interrupted installation can be repeated", "statement": "After an installation interrupted at any point, running the same command again completes it.", "quantifier": "all interruption points, also between two bytes of a file", "why_tests_cant": "all crash points", "anchors": ["emlearn/arduino/install.py:install_arduino_library"]}
{"id": "C134", "title": "A returning installation has installed the headers", "statement": "install_arduino_library returns only if the headers were found and installed.", "quantifier": "all file systems and include directories", "why_tests_cant": "all paths and contents", "anchors": ["emlearn/arduino/install.py:install_arduino_library", "emlearn/utils/fileutils.py:ensure_dir_single"]}
{"id": "C135", "title": "Fixed-point network layers", "statement": "eml_net_forward_q16 computes the layer, activation(inputs * weights + biases), in fixed point, or reports an error.", "quantifier": "all inputs, weights, biases and activations", "why_tests_cant": "all layers", "anchors": ["emlearn/eml_net_fixedpoint.h:eml_net_forward_q16"]}
{"id": "C136", "title": "Log entries can be read back", "statement": "A sequence of log entries made with the macros of eml_log.h is a text in logfmt from which a reader gets back exactly the events, keys and values: integers and strings exactly, floating-point values up to 0.00005. Nothing is written unless logging is enabled.", "quantifier": "all sequences of entries, all keys and values", "why_tests_cant": "the text must be unambiguous for all events, keys and values", "anchors": ["emlearn/eml_log.h:EML_LOG_BEGIN", "emlearn/eml_log.h:EML_LOG_ADD", "emlearn/eml_log.h:EML_LOG_ADD_INTEGER", "emlearn/eml_log.h:EML_LOG_ADD_BOOL", "emlearn/eml_log.h:EML_LOG_ADD_FLOAT", "emlearn/eml_log.h:EML_LOG_ADD_ARRAY", "emlearn/eml_log.h:EML_LOG_END"]}
{"id": "C137", "title": "IIR filters stay accurate in float32 however long the stream is", "statement": "If every section of a filter is stable and the signal is far from overflow, then every output sample of the filter, computed in float32 with the state carried from sample to sample, is finite and within a fixed distance of the output of the difference equations with the stored coefficients. The distance depends on the coefficients and on the size of the samples and not on the length of the stream.", "quantifier": "all cascades of stable sections, all streams of bounded samples of any length", "why_tests_cant": "rounding errors are fed back, so that an error may grow for ever; only an induction over the stream excludes it", "anchors": ["emlearn/eml_iir.h:eml_iir_filter", "emlearn/eml_iir.h:eml_biquad_tdf2", "bindings/eml_signal.cpp:iirfilter"]}
{"id": "C138", "title": "Which IIR sections keep bounded signals bounded", "statement": "A second-order section turns all bounded signals into bounded signals exactly when both of its poles lie inside the unit circle; its output is then at most (|b0|+|b1|+|b2|)/((1-|p1|)(1-|p2|)) times larger than its input.", "quantifier": "all sections and all bounded signals", "why_tests_cant": "infinitely long signals", "anchors": ["emlearn/eml_iir.h:eml_biquad_tdf2"]}
{"id": "C139", "title": "predict_proba with soft voting is the mean of the leaf proportions", "statement": "For a tree classifier converted with leaf_bits 2 to 8 (inline or loadable, int16_t or float features), predict_proba returns, for every row and class, the mean over the trees of the class proportions in the leaf the row reaches, up to half a quantisation level plus 1/255 plus the float32 and printing errors. Away from the thresholds these are the leaves scikit-learn reaches.", "quantifier": "all fitted forests with proportions, all leaf_bits from 2 to 8, all matrices of rows", "why_tests_cant": "all models, all rows; quantisation, float sums over any number of trees and decimal printing add up", "anchors": ["emlearn/trees.py:Wrapper", "emlearn/trees.py:quantize_probabilities_into_byte", "emlearn/trees.py:generate_c_inlined", "emlearn/eml_trees.h:eml_trees_predict_proba"]}
{"id": "C140", "title": "predict with soft voting returns the class with the largest mean proportion", "statement": "For a tree classifier converted with leaf_bits 2 to 8, predict returns the class whose mean proportion over the trees is the largest (the class scikit-learn returns).", "quantifier": "all fitted forests with proportions, all leaf_bits from 2 to 8, all matrices of rows", "why_tests_cant": "all models, all rows", "anchors": ["emlearn/trees.py:Wrapper", "emlearn/trees.py:quantize_probabilities_into_byte", "emlearn/trees.py:generate_c_inlined", "emlearn/eml_trees.h:eml_trees_predict"]}
{"id": "C141", "title": "Files of inline tree models define what their users call, and nothing twice", "statement": "The C file that save(name) returns for a tree model with inline inference defines the functions NAME_tree_0 ... NAME_tree_(n-1), one per tree, a leaf table NAME_leaves exactly when leaves are not class numbers, NAME_predict, and for classifiers (unless turned off) NAME_predict_proba; no identifier is defined twice; each of the user functions calls every tree function once, in order.", "quantifier": "all converted tree models of any number and depth of trees, all valid names", "why_tests_cant": "the text is generated from the model; brackets, names and calls must be right for every forest", "anchors": ["emlearn/trees.py:generate_c_inlined", "emlearn/trees.py:generate_c_forest", "emlearn/trees.py:Wrapper", "emlearn/cgen.py:array_declare"]}
{"id": "C142", "title": "The tree functions in the saved file are the fitted trees", "statement": "In the C file of a tree model with inline inference, the function NAME_tree_i, read as C, returns for every row the class (or, for a regressor, the value up to six printed decimals and rounding to float) of the leaf that row reaches in tree i of the fitted model, comparing each feature with the printed threshold.", "quantifier": "all fitted forests, all rows, all valid names", "why_tests_cant": "the nested text is generated recursively; it has to mean the tree for all trees and all rows", "anchors": ["emlearn/trees.py:generate_c_inlined", "emlearn/cgen.py:constant", "emlearn/trees.py:Wrapper"]}
{"id": "C143", "title": "The file of a loadable tree model holds the model", "statement": "The C file that save(name) returns for a loadable tree model, read as C, initialises a struct NAME whose counts and arrays are exactly the converted model, and defines NAME_predict (and NAME_predict_proba) as calls of the library functions with that struct and the caller's arguments. So a C program including the file computes the majority vote of the fitted trees.", "quantifier": "all loadable tree models, all valid names, all rows", "why_tests_cant": "the text has to mean the model for all models", "anchors": ["emlearn/trees.py:generate_c_loadable", "emlearn/trees.py:generate_c_nodes", "emlearn/cgen.py:array_declare", "emlearn/eml_trees.h:eml_trees_predict"]}
{"id": "C144", "title": "The file of a nearest neighbours model holds the model", "statement": "The C file that save(name) returns for a nearest neighbours model, read as C, initialises a struct NAME with exactly the training rows, labels, counts and k of the converted model; no identifier is defined twice.", "quantifier": "all training sets, all k, all valid names", "why_tests_cant": "the text has to mean the model for all training sets", "anchors": ["emlearn/neighbors.py:c_generate_neighbors", "emlearn/neighbors.py:neighbors_model_init", "emlearn/cgen.py:array_declare", "emlearn/cgen.py:struct_declare"]}
{"id": "C145", "title": "save(name, file) writes the returned code to that file and touches nothing else", "statement": "save returns the code of the model under the given name, or without a name under the file's stem, and writes exactly this code to the file and to no other; without a file, or when it raises, no file changes; without both it raises. The first positional argument is the name.", "quantifier": "all models, names, paths and contents of the file system", "why_tests_cant": "all paths and all prior contents", "anchors": ["emlearn/trees.py:Wrapper.save", "emlearn/neighbors.py:Wrapper.save", "emlearn/bayes.py:Wrapper.save", "emlearn/distance.py:Wrapper.save", "emlearn/mixture.py:Wrapper.save", "emlearn/net.py:Wrapper.save"]}
{"id": "C146", "title": "Models saved under different names can be used in one program", "statement": "Two models saved under different names define no common identifier, and a saved model defines no identifier of the emlearn library, so the files can be included together.", "quantifier": "all pairs of saved models and names", "why_tests_cant": "all names", "anchors": ["emlearn/trees.py:generate_c_inlined", "emlearn/trees.py:generate_c_loadable", "emlearn/neighbors.py:c_generate_neighbors", "emlearn/cgen.py:assert_valid_identifier"]}
{"id": "C147", "title": "NAME_predict in the saved file returns the model's answer", "statement": "In the C file of a tree model with inline inference, the function NAME_predict, read as C and run statement by statement on any row of at least the model's number of features, calling the tree functions of the same file, has no undefined behaviour and returns: for a classifier a class no other class has more votes than (the first of them), with soft voting the class with the largest mean proportion up to the rounding of the leaves, for a regressor the mean of the trees' values up to the stated rounding.", "quantifier": "all fitted forests of any number and depth of trees, all rows, all valid names, int16_t and float features", "why_tests_cant": "the text is generated from the model and unit tests run a few models; the loops and the table look-ups must be right for every forest and row", "anchors": ["emlearn/trees.py:generate_c_inlined", "emlearn/trees.py:generate_c_forest", "emlearn/trees.py:Wrapper.save"]}
{"id": "C148", "title": "NAME_predict_proba in the saved file fills in the proportions", "statement": "In the C file of a tree classifier with inline inference, the function NAME_predict_proba, read as C and run on any row and any array of at least the number of classes, has no undefined behaviour, returns 0, writes the proportion of the trees voting for each class (with soft voting the mean proportion, up to the rounding of the leaves) and leaves the other elements of the array alone.", "quantifier": "all fitted forests, all rows, all arrays, all valid names, int16_t and float features", "why_tests_cant": "the text is generated from the model; the writes to the caller's array must be right for every forest, row and array", "anchors": ["emlearn/trees.py:generate_c_inlined", "emlearn/trees.py:generate_c_forest", "emlearn/trees.py:Wrapper.save"]}
{"id": "C149", "title": "The C file of a neural network holds the network that runs", "statement": "The C file that save writes for a converted network defines one EmlNet struct under the model's name whose layers, sizes, activation functions, weights and biases, read as C, are exactly the network that predict of the wrapper runs, with buffers of the stated length; the functions NAME_predict, NAME_regress and NAME_regress1 pass their arguments and this struct to the library function of the same purpose.", "quantifier": "all networks (any number of layers and sizes within int32_t, all weights that can be compiled, all activation functions), all valid names", "why_tests_cant": "the text is generated from the model; the arrays, the table of layers and the pointers between them must be right for every network", "anchors": ["emlearn/net.py:c_generate_net_loadable", "emlearn/net.py:c_generate_layer_data", "emlearn/net.py:c_activation_function", "emlearn/net.py:Wrapper.save", "emlearn/cgen.py:array_declare", "emlearn/cgen.py:struct_init"]}
{"id": "C150", "title": "The C file of an elliptic envelope holds the envelope that runs", "statement": "The C file that save writes for a converted elliptic envelope consists of exactly two float arrays, one EmlEllipticEnvelope struct and one function, with distinct names; read as C, the struct has the number of features, means and precisions of the envelope that predict of the wrapper runs, and its decision boundary is written as a constant whose nearest float is that envelope's; the function passes its row and this struct to eml_elliptic_envelope_predict and returns the distance.", "quantifier": "all fitted envelopes (any number of features, all numbers), all valid names, any str() that reads back", "why_tests_cant": "the text is generated from the model; arrays, sizes and the pointers to them must be right for every model and name", "anchors": ["emlearn/distance.py:generate_code", "emlearn/distance.py:Wrapper.save", "emlearn/cgen.py:array_declare"]}
{"id": "C151", "title": "The C file of a Gaussian mixture holds the mixture that runs", "statement": "The C file that save writes for a converted Gaussian mixture consists of exactly four float arrays, one EmlMixtureModel struct and three functions, with distinct names; read as C, the struct is the mixture that the program of the wrapper runs; NAME_predict_log_proba, NAME_score and NAME_predict_proba pass their arguments and this struct to the library function of the same purpose.", "quantifier": "all wrappers (any number of components and features within int32_t, all numbers that compile), all valid names", "why_tests_cant": "the text is generated from the model; arrays, sizes and the order of the struct's fields must be right for every model and name", "anchors": ["emlearn/mixture.py:generate_code", "emlearn/mixture.py:Wrapper.save", "emlearn/mixture.py:build_executable", "emlearn/cgen.py:array_declare", "emlearn/cgen.py:struct_init"]}
{"id": "C152", "title": "The C file of a naive Bayes model holds the model that runs", "statement": "The C file that save writes for a converted naive Bayes classifier consists of exactly one array of summaries, one EmlBayesModel struct and one function, with distinct names; read as C, the struct has the numbers of classes and features and the array, of exactly their product of rows in class-major order, has the fixed-point mean, deviation and logarithm of the model that predict of the wrapper runs (each written as EML_Q16_FROMFLOAT of a constant whose nearest double gives that number); the function passes its row and this struct to eml_bayes_predict.", "quantifier": "all estimators (any number of classes and features, all finite numbers that compile), all valid names, any str() that reads back", "why_tests_cant": "the text is generated from the model; the order of the rows, the size of the array and the fields must be right for every model and name", "anchors": ["emlearn/bayes.py:generate_c", "emlearn/bayes.py:c_struct_init", "emlearn/bayes.py:c_tofixed", "emlearn/bayes.py:Wrapper.save"]}
