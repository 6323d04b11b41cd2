#!/usr/bin/env python3
# Regenerates /verif/properties.jsonl.  One tuple per property.
import json
P=[]
def p(title, statement, quantifier, why, anchors):
    P.append(dict(id="C%02d"%(len(P)+1), title=title, statement=statement, quantifier=quantifier, why_tests_cant=why, anchors=anchors))

T="emlearn/trees.py"; TH="emlearn/eml_trees.h"
p("Flattening a tree preserves its decisions",
  "Converting one fitted sklearn tree (its parallel arrays children_left/children_right/feature/threshold/value) with flatten_tree yields a (decision nodes, leaves) pair such that, for any left/right decision procedure, walking the flat nodes from node 0 ends in the leaf holding exactly the converted value of the sklearn leaf that the same decision procedure reaches from the sklearn root; this includes the single-leaf tree.",
  "every well-formed tree array of any size and shape, every decision procedure (hence every feature vector and threshold semantics)",
  "Index remapping (leaves removed, decision nodes renumbered) can be wrong only for particular shapes/orders of nodes; there are unboundedly many shapes.",
  [T+":flatten_tree"])
p("Forest conversion preserves every tree",
  "After flatten_forest over any list of trees, followed by remove_duplicate_leaves, the walk from the i-th root ends in a leaf whose value equals the value reached in the i-th original tree; roots has one entry per tree in order.",
  "every list of well-formed trees, every decision procedure",
  "Offsets of node and leaf references accumulate over trees; a wrong offset shows only for some combinations of tree sizes.",
  [T+":flatten_forest", T+":remove_duplicate_leaves"])
p("Leaf de-duplication",
  "remove_duplicate_leaves returns a leaf table without two equal entries, whose set of values is unchanged, that is never longer than the input, and every node child still denotes an equal leaf value (decision-node references and roots are unchanged); applying it again changes nothing.",
  "every forest and every leaf table",
  "Needs all patterns of duplicates.",
  [T+":remove_duplicate_leaves"])
p("Conversion of a valid model never raises, and sizes add up",
  "For every non-empty list of well-formed sklearn trees none of the assertions, dictionary look-ups or divisions in flatten_tree/flatten_forest/remove_duplicate_leaves fails, all child references of the result are valid and every decision node and leaf is referenced, and for each tree (decision nodes + leaves) equals node_count (2 for a single-node tree).",
  "every list of well-formed trees",
  "Internal assertions abort conversion on user models; only a proof covers all shapes.",
  [T+":flatten_tree", T+":flatten_forest", T+":assert_node_references_valid", T+":remove_duplicate_leaves"])
p("Loadable tree walk: termination, memory safety, result",
  "For every converted forest whose encoded fields fit the C struct, the C walk eml_trees_predict_tree over the generated node table terminates within the number of nodes, reads only inside nodes[] and features[], and returns the index of the leaf that the forest's own (absolute-index) semantics reaches with the comparison feature < threshold.",
  "every converted forest within the C field ranges, every int16 feature vector of the model's length",
  "Termination and absence of out-of-bounds reads range over all inputs.",
  [TH+":eml_trees_predict_tree", T+":encode_child", T+":generate_c_nodes"])
p("Accepted child references fit the C node struct",
  "Every child reference accepted by the conversion (encode_child does not raise) is representable in the int16_t field of EmlTreesNode, so the C walk decodes it to the same target.",
  "every (node index, child) pair",
  "The failing value is a single boundary (offset 32768) reached only by forests with more than 32768 decision nodes.",
  [T+":assert_valid_child", T+":encode_child", TH+":EmlTreesNode"])
p("Loadable predict is the majority vote",
  "With hard voting, eml_trees_predict returns the lowest-numbered class with the maximum number of tree votes - despite counting in float and dividing by the number of trees - and never reads or writes outside its buffers.",
  "every generated hard-voting forest with 1..2^24-1 trees and at most 30 classes, every feature vector",
  "Rounding of float counters and of the division could merge two different vote counts; ties and counts up to 2^24 cannot be enumerated.",
  [TH+":eml_trees_predict", TH+":eml_trees_predict_proba"])
p("Loadable predict_proba (hard voting) and its error codes",
  "eml_trees_predict_proba stores in out[c] the float nearest to votes(c)/n_trees; on a wrong out_length it returns EmlSizeMismatch and leaves out unchanged; for an unsupported leaf format it returns EmlUnsupported; eml_trees_predict returns the length error for a wrong feature count or more than 30 classes.",
  "every forest, features, output buffer",
  "Exactness of rounding over all vote counts.",
  [TH+":eml_trees_predict_proba", TH+":eml_trees_predict"])
p("Inline and loadable code agree (hard voting)",
  "For every model with int16 features and hard voting the generated inline C program and the loadable C program return the same class for predict and bit-identical predict_proba outputs.",
  "every converted forest within field ranges with 1..2^24-1 trees, every feature vector",
  "Two independent code generators must agree on all inputs.",
  [T+":generate_c_inlined", T+":generate_c_loadable", TH+":eml_trees_predict"])
p("Inline and loadable code agree (soft voting)",
  "With leaf_bits 2..8 the generated inline and loadable programs return bit-identical predict_proba outputs and the same predict class.",
  "every converted soft-voting forest, every feature vector",
  "The loadable code takes the argmax after dividing by the number of trees, the inline code before; whether rounding can flip the winner is a question about all sums.",
  [T+":generate_c_inlined", TH+":eml_trees_predict_proba", TH+":eml_trees_predict"])
p("Generated code takes the same branch as scikit-learn",
  "At every decision node and for every integer feature value x, the generated comparison x < int(threshold) is true exactly when scikit-learn's x <= threshold is.",
  "every threshold, every integer feature value",
  "The disagreement is at one boundary value per node.",
  [T+":generate_c_nodes", T+":generate_c_inlined", "emlearn/cgen.py:constant", TH+":eml_trees_predict_tree"])
p("Quantisation of leaf probabilities",
  "quantize_probabilities_into_byte maps a probability vector in [0,1] to bytes in 0..255, monotonically, 0 to 0 and 1 to 255, and byte/255 differs from the probability by at most 1/(2*(2^bits-2)) + 1/255 (up to float rounding), using at most 2^bits-1 distinct levels.",
  "every probability in [0,1] (any float64) and every bits in 2..8",
  "float64 rounding, half-even rounding and truncation interact; the input domain is 2^62 floats.",
  [T+":quantize_probabilities_into_byte"])
p("Regression leaves survive the byte table",
  "For a regressor, eml_trees_regress reads from the generated byte table, for every tree, exactly the float32 nearest to the sklearn leaf value, sums them in tree order and divides by the number of trees; with leaf formats other than 32 it returns EmlUnsupported and eml_trees_regress1 returns NAN.",
  "every regression forest, every feature vector",
  "Byte encodings must be inverse for all 2^32 bit patterns and all table positions.",
  [T+":leaves_to_bytelist", TH+":eml_trees_regress", TH+":eml_trees_regress1"])
p("Errors are never reported as a predicted class",
  "The Python predict() of a converted tree classifier never turns a C error code or a 'no class' result into a class number.",
  "every converted classifier and input row",
  "Error results occur only for particular models (more than 30 classes, all-zero quantised leaves).",
  [T+":Wrapper._build_classifier", TH+":eml_trees_predict"])
p("Reported model size is the size of the generated tables",
  "evaluate.trees.model_size_nodes/leaves/bytes report the number of decision nodes, of leaves, and the bytes used by the node and leaf tables of the generated loadable code.",
  "every converted model, every leaf_bits",
  "A formula must match the generator for all models.",
  ["emlearn/evaluate/trees.py:model_size_bytes", T+":leaves_to_bytelist", T+":generate_c_loadable"])
p("CSV export of trees is complete and re-readable",
  "save(format='csv') succeeds for every converted model and the written f/c/lb/l/r/n records determine the forest: decoding relative child references gives back the same nodes, roots and leaves.",
  "every converted forest",
  "Round-trip over all forests, including degenerate single-leaf trees.",
  [T+":Wrapper.save", T+":encode_child"])
N="emlearn/eml_neighbors.h"
p("kNN distance is the Euclidean distance",
  "eml_distance_euclidean_int16 returns the integer part of the Euclidean distance between the two int16 vectors.",
  "every pair of int16 vectors of any length",
  "The function is wrong only for large differences (sum of squares >= 2^30), which tests do not reach.",
  [N+":eml_distance_euclidean_int16"])
p("Integer square root",
  "eml_isqrt(x) returns floor(sqrt(x)).",
  "every int32 x",
  "2^31 inputs; failing ones are in the top half of the range.",
  [N+":eml_isqrt"])
p("In-place sort is correct, safe and bounded",
  "eml_neighbors_sort_distances leaves the array sorted by distance and a permutation of the input, never accesses an element outside the array, never needs more than the fixed number of stack frames, and terminates.",
  "every array length below 2^48 and every content",
  "Sentinel-based inner loops and the explicit stack bound depend on all permutations and sizes.",
  ["emlearn/eml_qsort.h:QSORT", N+":eml_neighbors_sort_distances"])
p("kNN prediction is the vote of the k nearest items",
  "When it returns EmlOk, eml_neighbors_predict stores the lowest label having the most votes among k items such that no other item is strictly nearer; it returns an error exactly for wrong lengths, k larger than the number of items, or a label of a neighbour outside 0..9.",
  "every stored data set, query and k",
  "Depends on all orderings of distances and labels.",
  [N+":eml_neighbors_predict", N+":eml_neighbors_find_nearest", N+":eml_neighbors_infer"])
p("On-device learning keeps exactly the accepted items",
  "After any sequence of eml_neighbors_add_item calls the model holds exactly the accepted (values,label) pairs, in order; a call is accepted iff its length matches and there is room; a rejected call changes nothing, and no memory outside the item's slots is written.",
  "every history of add_item calls",
  "History property.",
  [N+":eml_neighbors_add_item", N+":eml_neighbors_check"])
A="emlearn/eml_array.h"
p("2-D array addressing is in bounds and injective",
  "After a successful eml_array_init_full with 2 dimensions, eml_array_data_2d returns NULL exactly for out-of-range (col,row), and otherwise an offset whose value_size bytes lie inside the buffer and do not overlap those of any other cell.",
  "every dimensions, value size, buffer length and cell",
  "Non-linear index arithmetic over all sizes.",
  [A+":eml_array_init_full", A+":eml_array_data_2d", A+":eml_storage_size_array"])
p("Row shift",
  "eml_array_shift_rows(-s) with 0<=s<=rows moves row i+s to row i for every i < rows-s, leaves the remaining rows and everything outside the array unchanged; other arguments give an error without any change.",
  "every 2-D array, content and shift",
  "In-place overlapping copies, all sizes.",
  [A+":eml_array_shift_rows"])
p("Row copy",
  "eml_array_copy_rows(self,start,other) either returns an error and changes nothing, or copies every row of other to rows start.. of self and leaves all other rows unchanged.",
  "every pair of 2-D arrays and start",
  "All shapes and element sizes.",
  [A+":eml_array_copy_rows"])
p("Sliding window over a stream",
  "Repeating shift_rows(-k) followed by copy_rows(rows-k, chunk of k rows) keeps the array equal to the last `rows` rows of the initial content followed by all chunks.",
  "every sequence of chunks (of varying heights <= rows)",
  "History property over unbounded streams.",
  [A+":eml_array_shift_rows", A+":eml_array_copy_rows"])
V="emlearn/eml_csv.h"
p("CSV written is CSV read",
  "A header and any rows written with EmlCsvWriter are returned, field by field and in order, by EmlCsvReader on the same stream, and after the last row the reader reports 0.",
  "every list of column names and rows of formatted fields, every buffer large enough for the longest line",
  "Histories of reads with seeks; all row counts and lengths.",
  [V+":eml_csv_writer_write_header", V+":eml_csv_writer_write_data", V+":eml_csv_reader_read_header", V+":eml_csv_reader_read_data"])
p("CSV reader failures are distinguishable",
  "eml_csv_reader_read_data returns a negative value on failure, 0 only at the end of the stream, and otherwise the number of columns read.",
  "every stream content and reader state",
  "The wrong cases are particular inputs (blank line, too small columns array).",
  [V+":eml_csv_reader_read_data", V+":eml_csv_reader_read_internal"])
X="emlearn/eml_fixedpoint.h"
p("Q16 division rounds to nearest",
  "eml_q16_div(a,b) is a*2^16/b rounded to the nearest integer, halves away from zero, whenever b is non-zero and the result fits 32 bits.",
  "every pair of int32 values",
  "2^64 input pairs and four sign combinations.",
  [X+":eml_q16_div"])
p("Q16 multiplication and conversions",
  "EML_Q16_FROMINT/TOINT round-trip for every 16-bit integer; eml_q16_mul(x,y) never exceeds the 32-bit range when both operands are below 2^23 in magnitude and differs from x*y/2^16 by at most (|x|+|y|)/2^8 + 1; Python from_float/to_float lose less than one unit 2^-fraction_bits and are exact on representable numbers.",
  "every operand",
  "All operand values.",
  [X+":eml_q16_mul", X+":EML_Q16_FROMINT", "emlearn/fixedpoint.py:from_float", "emlearn/fixedpoint.py:to_float"])
B="emlearn/eml_bayes.h"
p("Fixed-point log2",
  "eml_bayes_log2fix(x,p) terminates for every accepted precision and its result y satisfies y/2^p <= log2(x/2^p) < y/2^p + 4/2^p.",
  "every x>0 in uint32 and every accepted precision",
  "Error accumulation over all inputs; non-termination at one precision.",
  [B+":eml_bayes_log2fix"])
p("Naive Bayes prediction is the most probable class",
  "eml_bayes_predict returns the lowest class index whose accumulated log-probability is maximal, always within 0..n_classes-1, and touches no memory outside the model and its local array; a feature value nearer to a class mean never lowers that class's score.",
  "every model, every input",
  "All class counts (local array has 10 entries) and all scores.",
  [B+":eml_bayes_predict", B+":eml_bayes_logpdf", B+":eml_bayes_logpdf_std"])
E="emlearn/eml_net.h"
p("Network inference is layer composition and keeps no history",
  "eml_net_infer leaves in activations2 the composition of the layers (activation(W^T x + b)) applied to the features; the result does not depend on what the activation buffers held before, so any earlier sequence of calls has no influence, and nothing outside the buffers is accessed.",
  "every network with >= 2 layers of compatible sizes, every input, every previous buffer content, any float arithmetic",
  "History and shape quantification.",
  [E+":eml_net_infer", E+":eml_net_forward", E+":eml_net_layer_forward"])
p("predict, predict_proba and regress are consistent",
  "predict_proba(x)[c] is the network's output for class c (for one output p: [1-p, p]) and predict is consistent with it; regress returns the raw outputs.",
  "every network and input",
  "All output sizes; the 2-output case is special.",
  [E+":eml_net_predict_proba", E+":eml_net_predict", E+":eml_net_regress", E+":eml_net_regress1"])
p("Inline and loadable networks agree",
  "The inference function of the inline template and eml_net_infer on the generated structs compute the same outputs and the same predicted class.",
  "every network, every input of the right length",
  "Two code paths, all networks.",
  ["emlearn/templates/net_float.jinja", "emlearn/net.py:c_generate_net_inline", "emlearn/net.py:c_generate_net_loadable", E+":eml_net_infer"])
p("argmax helpers return the position of the maximum",
  "eml_net_argmax (float) and eml_argmax_fixed32 return the first index of a maximal element for every non-empty array.",
  "every array",
  "Failing inputs are those whose maximum is first (fixed32) or all -inf/NaN (float).",
  [E+":eml_net_argmax", "emlearn/eml_net_fixedpoint.h:eml_argmax_fixed32", "emlearn/net.py:argmax"])
p("Softmax and activation ranges",
  "In exact arithmetic eml_net_softmax turns any non-empty vector into positive numbers that sum to 1, keep the order of the inputs and equal exp(x_i)/sum exp(x_j); logistic lies in (0,1), relu is max(0,x).",
  "every real vector",
  "All vectors.",
  [E+":eml_net_softmax", E+":eml_net_relu", E+":eml_net_expit"])
p("Keras conversion preserves the function",
  "convert_keras of a Sequential model yields layers whose composition is the function of the Keras model (Dense, Activation, ReLU, Softmax, Dropout layers), or raises.",
  "every sequence of supported layers",
  "All layer sequences.",
  ["emlearn/net.py:convert_keras", "emlearn/net.py:from_keras_activation"])
p("IIR filter computes its difference equation for every stream",
  "With zero initial state, feeding any stream sample by sample through eml_iir_filter outputs, in exact arithmetic, the cascade of second-order sections y[n]=b0x[n]+b1x[n-1]+b2x[n-2]-a1y[n-1]-a2y[n-2]; splitting the stream into blocks makes no difference, and two filters with separate state do not influence each other.",
  "every coefficient set, number of stages and stream",
  "Unbounded streams and states.",
  ["emlearn/eml_iir.h:eml_iir_filter", "emlearn/eml_iir.h:eml_biquad_tdf2", "emlearn/eml_iir.h:eml_iir_check"])
F="emlearn/eml_fft.h"
p("FFT computes the discrete Fourier transform",
  "For every n that is a power of two, eml_fft_forward with a table from eml_fft_fill replaces (real, imag), in exact arithmetic, by the DFT X[k]=sum x[j] exp(-2 pi i jk/n); for any other n or table size it returns EmlSizeMismatch and leaves the buffers unchanged; all accesses are in bounds.",
  "every n, every input",
  "All sizes and vectors.",
  [F+":eml_fft_forward", F+":eml_fft_fill"])
p("Bit reversal is a permutation",
  "reverse_bits(.,levels) is an involution on 0..2^levels-1, so the in-place swap loop applies exactly that permutation.",
  "every number of levels and index",
  "All sizes.",
  [F+":reverse_bits", F+":eml_fft_forward"])
S="emlearn/signal.py"; AU="emlearn/eml_audio.h"
p("Sparse filterbank equals the dense filterbank",
  "Reducing a spectrum with the sparse representation built by sparse_filterbank (in Python and in C) gives the matrix-vector product with the dense filterbank.",
  "every filterbank matrix and spectrum",
  "Fails only for filters with interior zeros or empty filters.",
  [S+":sparse_filterbank", S+":sparse_filterbank_reduce", AU+":eml_sparse_filterbank"])
p("Mel filter reads stay inside the spectrum",
  "eml_audio_melspec reads only spec[0..length-1] and writes only mels[0..n_mels-1], or returns an error.",
  "every parameter set and bin placement",
  "Off-by-one depends on parameters near Nyquist.",
  [AU+":eml_audio_melspec"])
D="emlearn/eml_distance.h"
p("Mahalanobis distance and outlier decision",
  "eml_mahalanobis_distance_squared equals (x-m)^T P (x-m) in exact arithmetic and equals the Python squared_mahalanobis_distance for every P (symmetric or not); eml_elliptic_envelope_predict returns 1 exactly when -distance is below the boundary, and Python predict() gives the same inlier/outlier decision.",
  "every vectors, matrix and boundary",
  "All dimensions and boundary cases.",
  [D+":eml_mahalanobis_distance_squared", D+":eml_elliptic_envelope_predict", "emlearn/distance.py:squared_mahalanobis_distance", "emlearn/distance.py:Wrapper.predict"])
M="emlearn/eml_mixture.h"
p("Gaussian mixture scores",
  "After convert_to_full, eml_mixture_predict_log_proba computes, in exact arithmetic, for each component the log weighted density with the original (full/tied/diag/spherical) precision; eml_mixture_score is the log of the sum of their exponentials and eml_mixture_predict_proba returns non-negative responsibilities that sum to 1.",
  "every model of each covariance type, every input",
  "All dimensions, component counts and inputs.",
  [M+":eml_mixture_predict_log_proba", M+":eml_mixture_score", M+":eml_mixture_predict_proba", M+":eml_logsumexp", "emlearn/mixture.py:convert_to_full"])
p("C feature quantiser saturates and counts",
  "eml_quantizer_check_forward_int16 writes for every value the truncated scaled value clamped to [-32767,32767], reports exactly the numbers of values below/above the range, is monotone for positive scales, never performs an out-of-range float-to-int conversion unless a scaled value is NaN, and errors on mismatched lengths without writing; inverse after forward is within 1+1/512 steps (the excess is float32 rounding) of every in-range value, for scales of at least 2^-100.",
  "every float32 scale and values",
  "All floats including infinities and NaN.",
  ["emlearn/eml_quantizer.h:eml_quantizer_check_forward_int16", "emlearn/eml_quantizer.h:eml_quantizer_inverse_int16"])
p("Python Quantizer",
  "Quantizer.transform always yields values representable in the target integer dtype within [-out_max,out_max], is monotone, and inverse_transform(transform(x)) is within one step (1/scale) of clip(x).",
  "every fitted scale, every value, every integer dtype",
  "The failing cases are at the clip limit of 64-bit types.",
  ["emlearn/preprocessing/quantizer.py:Quantizer"])
p("Pareto front",
  "is_pareto_efficient_simple marks a point iff no other point is at least as good in every cost and better in one, keeping exactly the first of identical points; find_pareto_front additionally keeps only rows meeting min_performance.",
  "every finite set of cost vectors, in any order",
  "The algorithm mutates the mask while iterating; all orders matter.",
  ["emlearn/evaluate/pareto.py:is_pareto_efficient_simple", "emlearn/evaluate/pareto.py:find_pareto_front"])
p("Accepted names are C identifiers",
  "Every name accepted by assert_valid_identifier is a C identifier ([_A-Za-z][_A-Za-z0-9]*) that is not a C89..C23 keyword, and every such identifier is accepted.",
  "every string",
  "All strings; the failing one ends in a newline.",
  ["emlearn/cgen.py:assert_valid_identifier", "emlearn/creserved.py:RESERVED_WORDS"])
p("Generated array initialisers denote the given values",
  "array_declare emits exactly `size` initialisers, raises when size and number of values differ, and for integer dtypes reading the emitted decimal text back gives the (truncated) values in order; float constants are within 0.5e-6 of the value.",
  "every list of finite values (integers up to 2^53 when the dtype is float)",
  "All values and lengths.",
  ["emlearn/cgen.py:array_declare", "emlearn/cgen.py:constant"])
p("Test harness delivers rows unchanged",
  "The compiled classifier used by predict() receives, for every row of at most 256 values whose text fits the line buffer, exactly one call with exactly the row's fields in order; integer features of int16 models arrive exactly.",
  "every matrix of rows",
  "Line-buffer splits and tokenisation depend on lengths; all int16 values.",
  ["emlearn/eml_test.h:eml_test_read_csv", "emlearn/eml_test.h:eml_test_parse_csv_line", "emlearn/common.py:run_classifier"])
p("Error strings name the error",
  "eml_error_str gives for each EmlError a text naming that error, and a fixed text for any other code.",
  "every integer error code",
  "All codes (enum and table are maintained separately).",
  ["emlearn/eml_common.h:eml_error_str", "emlearn/eml_common.h:EmlError"])
p("Vector copy stays in bounds",
  "eml_vector_set(dest,source,location) either returns a negative code and changes nothing, or copies source into dest at location, leaving the rest of dest unchanged and accessing nothing outside either vector.",
  "every pair of vectors and location",
  "All lengths and offsets including negative ones.",
  ["emlearn/eml_vector.h:eml_vector_set", "emlearn/eml_vector.h:eml_vector_view"])
p("Buffer check of the nearest-neighbours model",
  "eml_neighbors_check returns EmlOk exactly when the data, labels and distances buffers are large enough for max_items items.",
  "every model and every buffer length",
  "Lengths are passed through int16_t; only some lengths expose the wrap.",
  ["emlearn/eml_neighbors.h:eml_neighbors_check"])
p("CSV rows are written whole",
  "eml_csv_writer_write_data either appends exactly one line with the texts of all values, separated by commas, or returns an error and writes nothing.",
  "every stream content, row and number formatter",
  "Depends on the printed length of every value.",
  ["emlearn/eml_csv.h:eml_csv_writer_write_data"])
p("CSV header is read whole",
  "eml_csv_reader_read_header returns EmlOk only if the whole header line was read, with every name in order, and leaves the reader at the first data line.",
  "every header, buffer length and columns length",
  "Only buffers shorter than the header show the loss.",
  ["emlearn/eml_csv.h:eml_csv_reader_read_header"])
p("Generated Naive Bayes table", "The generated EmlBayesModel has n_classes*n_features summaries; the one at class*n_features+feature holds mean, standard deviation and log2 of it as Q16.16 (x*2^16, fraction dropped), for all numbers below 32768 in magnitude.",
  "every fitted model", "Tests compile a few models.", ["emlearn/bayes.py:generate_c", "emlearn/bayes.py:c_tofixed", "emlearn/eml_fixedpoint.h:EML_Q16_FROMFLOAT"])
p("The Python IIR binding is the filter", "emlearn's iirfilter(sos, data) runs the cascade of the sections given by the rows of sos, from zero state, over data, for every (n,6) matrix, and raises for a matrix of any other shape.",
  "every matrix and every stream", "Tests use six columns only.", ["bindings/eml_signal.cpp:iirfilter_py", "emlearn/eml_iir.h:eml_iir_filter"])
p("Outlier detection rejects rows of the wrong length", "A row whose number of values differs from the model's is reported as an error by eml_elliptic_envelope_predict and by the Python wrapper, never as an inlier or outlier.",
  "every model and row", "Only wrong-length rows show it; error codes and answers share one integer.", ["emlearn/eml_distance.h:eml_elliptic_envelope_predict", "emlearn/distance.py:generate_code", "emlearn/distance.py:Wrapper.predict"])
p("Mixture predict gives the most responsible component", "Wrapper.predict of a converted Gaussian mixture returns a component whose responsibility for the row is greatest.",
  "every model and row", "Depends on how the responsibilities are printed; only near ties show it.", ["emlearn/mixture.py:Wrapper.predict", "emlearn/mixture.py:build_executable"])
p("Mixture inference checks the number of values", "eml_mixture_predict_log_proba, score and predict_proba return an error when values_length differs from n_features, and read nothing outside the values.",
  "every model and every values_length", "Tests pass rows of the right length.", ["emlearn/eml_mixture.h:eml_mixture_predict_log_proba"])
p("rfft gives the real part of the DFT", "rfft(x) of a signal whose length is a power of two is, in exact arithmetic, the real part of its discrete Fourier transform; every other length raises.",
  "every signal", "All lengths and signals.", ["bindings/eml_audio.cpp:rfft_py", "emlearn/eml_fft.h:eml_fft_forward"])
p("Power spectrum", "eml_audio_power_spectrogram writes |rfft[i]|^2/n_fft for i = 0..n_fft/2 and nothing else when rfft is longer than 1+n_fft/2 and out has that length, and otherwise returns SizeMismatch and writes nothing.",
  "every spectrum, vector placement and n_fft", "All sizes and placements.", [AU+":eml_audio_power_spectrogram"])
p("The mel filterbank is triangular on the mel scale", "melfilter gives, in exact arithmetic, the response of n_mels triangular filters whose corners are n_mels+2 frequencies evenly spaced on the (HTK) mel scale from fmin to fmax.",
  "every spectrum and parameters with fmax at most half the sampling rate", "Only bins just above a center show the error.", [AU+":eml_audio_melspec", AU+":eml_audio_mel_center", "bindings/eml_audio.cpp:melfilter"])
p("Mel spectrogram of a block", "melspectrogram(x) is the mel filterbank applied to the power spectrum of the Hann-windowed block.",
  "every block and parameters", "All blocks; the existing test is disabled.", [AU+":eml_audio_melspectrogram", "bindings/eml_audio.cpp:melspectrogram"])
p("Mean and Hann window", "eml_signal_mean is the sum over the length and eml_signal_hann_apply multiplies sample i by the symmetric Hann window (1-cos(2 pi i/(n-1)))/2, for every length from 2 on, in exact arithmetic.",
  "every signal", "All lengths.", ["emlearn/eml_vector.h:eml_signal_mean", "emlearn/eml_vector.h:eml_signal_hann_apply"])
p("Quantizer learned from data", "After fit on data, transform maps every training value to within one step of x*out_max/largest, and the value of largest magnitude exactly to plus or minus out_max.",
  "every training set of finite values", "Depends on rounding of the division for every data set.", ["emlearn/preprocessing/quantizer.py:Quantizer.fit", "emlearn/preprocessing/quantizer.py:Quantizer.transform"])
p("Non-finite numbers are not written as constants", "array_declare raises when a value is NaN or infinite; it never emits text that is not a C constant.",
  "every list of values and dtype", "Models with NaN or infinite parameters are rare.", ["emlearn/cgen.py:constant", "emlearn/cgen.py:array_declare"])
p("Generated declarations", "constant_declare, array_declare and struct_declare emit one C declaration with the given modifiers, type, name, size and contents.",
  "every argument", "All names, types, modifiers and contents.", ["emlearn/cgen.py:constant_declare", "emlearn/cgen.py:array_declare", "emlearn/cgen.py:struct_declare"])
p("Fixed-point arrays", "array_declare_fixedpoint emits for each value x the 32-bit integer nearest below x*2^fraction_bits in magnitude, and raises for formats that are not 32 bits wide and values that do not fit.",
  "every format and list of finite values", "Depends on every value and format.", ["emlearn/cgen.py:array_declare_fixedpoint", "emlearn/fixedpoint.py:FixedPointFormat"])
p("predict gives one result per row from that row, or raises", "CompiledClassifier.predict (and regress) either returns exactly one result per row, each being the C function's value for that row (floats to six decimals, integers exactly), or raises; rows whose text does not fit the line buffer always raise.",
  "every matrix, C function and output type", "Line splitting depends on the text length of every row.", ["emlearn/common.py:CompiledClassifier.predict", "emlearn/common.py:run_classifier", "emlearn/eml_test.h:eml_test_read_csv"])
p("predict_proba gives the probabilities of each row, or raises", "CompiledClassifier.predict_proba either returns a matrix whose entry (i, c) is the c-th output of the C function called for row i (to six decimals), no entry left unassigned, or raises.",
  "every matrix, C function and number of classes", "Line splitting depends on the text length of every row; unassigned entries are arbitrary memory.", ["emlearn/common.py:CompiledClassifier.predict_proba", "emlearn/common.py:build_classifier", "emlearn/eml_test.h:eml_test_read_csv"])
p("Feature values arrive as the nearest float32", "The compiled classifier receives each feature value as the float32 nearest to it.",
  "every matrix", "All values, small ones in particular.", ["emlearn/common.py:run_classifier", "emlearn/eml_test.h:eml_test_parse_csv_line"])
TP="emlearn/trees.py"
p("predict returns the majority class of each row", "predict(X) of a converted tree classifier (hard voting, integer features within int16_t) returns one class per row of X: the lowest-numbered class with the most votes among the trees, each tree voting for the largest entry of the leaf reached by feature < int(threshold); for inline and loadable code, through the whole chain of text and compiled program.",
  "every fitted forest and every matrix of integers within int16_t", "All forests and matrices; tests run a few.", [TP+":Wrapper.predict", TP+":generate_c_inlined", TP+":generate_c_loadable", "emlearn/common.py:CompiledClassifier.predict", "emlearn/eml_trees.h:eml_trees_predict"])
p("predict_proba returns the share of the votes", "predict_proba(X) of a converted hard-voting tree classifier returns for each row and class the number of trees voting for it divided by the number of trees, within 1e-6.",
  "every fitted forest and every matrix of integers within int16_t", "Depends on float rounding and on printing, for all counts.", [TP+":Wrapper.predict_proba", "emlearn/common.py:CompiledClassifier.predict_proba", "emlearn/eml_trees.h:eml_trees_predict_proba"])
p("predict of a regressor returns the mean of the tree values", "predict(X) of a converted regressor with N trees and leaf values up to B in size returns for each row the mean of the values of the leaves reached, within (N+6)B/2^24 + 2e-6, for inline and loadable code.",
  "every fitted forest of up to 8388608 trees, leaf values up to 2^50, every matrix of integers within int16_t", "Rounding errors accumulate over the trees; tests see a few values.", [TP+":Wrapper.predict", TP+":generate_c_inlined", "emlearn/eml_trees.h:eml_trees_regress1"])
p("Leaf values are kept", "The generated code of a regressor holds each leaf value as the float32 nearest to it.",
  "every leaf value", "Small values are rarely tested.", [TP+":generate_c_inlined", TP+":leaves_to_bytelist", "emlearn/cgen.py:constant"])
p("Integer features: predictions are those of scikit-learn's walk away from the thresholds", "With int16_t features, predict returns the majority class (or the mean value, for regressors) of the leaves scikit-learn's own walk (feature <= threshold) reaches, for every row in which no feature a tree decides on equals int(threshold) while being at most the threshold.",
  "every fitted forest and every such matrix", "All rows and thresholds.", [TP+":Wrapper.predict", TP+":generate_c_inlined", "emlearn/eml_trees.h:eml_trees_predict_tree"])
p("Float features: predictions are those of scikit-learn's walk away from the thresholds", "With dtype='float', predict, predict_proba and regression decide as scikit-learn does for every row in which each feature x and threshold t a tree decides on differ by more than 1e-6 + (|x|+|t|)/2^24; on every row each decision is x' < t' with x' the value printed with 8 decimals and t' the threshold printed with 6.",
  "every fitted forest with thresholds up to 2^126 and every matrix whose rows fit the line buffer", "All values near thresholds.", [TP+":Wrapper.predict", TP+":generate_c_inlined", "emlearn/cgen.py:constant", "emlearn/common.py:run_classifier"])
p("Predictions are those of scikit-learn's walk on every row", "A converted model follows, for every row, the branches scikit-learn follows (feature <= threshold goes left).",
  "every fitted tree and row", "Only rows with a feature equal to a threshold (or to its integer part) show the difference.", [TP+":generate_c_inlined", "emlearn/eml_trees.h:eml_trees_predict_tree"])
NB="emlearn/neighbors.py"
p("predict of a converted kNN is the vote of the k nearest training rows", "predict(X) of a converted KNeighborsClassifier (integer training data and features within int16_t, labels 0..9, all distances below 2^15) returns one label per row of X: the lowest-numbered label with the most votes among k training rows such that no other training row has a smaller integer part of the Euclidean distance; the result for a row does not depend on the rows before.",
  "every training set up to 32767 rows of up to 127 columns, every k and every such matrix", "All data sets and matrices; ties and rounding of the distance.", [NB+":Wrapper.predict", NB+":c_generate_neighbors", "emlearn/eml_neighbors.h:eml_neighbors_predict", "emlearn/common.py:CompiledClassifier.predict"])
p("The training data is in the converted kNN model", "Converting a KNeighborsClassifier either raises or stores every training value, every label and k unchanged; unsupported metrics, weights and methods raise.",
  "every training set and setting", "All values, fractions in particular.", [NB+":Wrapper.__init__", NB+":c_generate_neighbors", "emlearn/cgen.py:constant"])
p("A converted kNN returns labels of the training data or raises", "Every result of predict(X) of a converted KNeighborsClassifier is a label of the training data, or predict raises.",
  "every converted model and matrix", "Error paths inside the compiled program.", [NB+":Wrapper.predict", "emlearn/eml_neighbors.h:eml_neighbors_predict"])
p("A model predicts with its own code, whatever else happens in the session", "predict and predict_proba of a converted model give what they would give if it were the only model of the session, whichever models are converted or used before and in between.",
  "every history of conversions (also failing ones) and predictions", "Needs histories with several models alive; tests use one at a time.", ["emlearn/common.py:CompiledClassifier", "emlearn/common.py:build_classifier", "emlearn/bayes.py:Wrapper", "emlearn/net.py:Wrapper", NB+":Wrapper", "emlearn/distance.py:Wrapper"])
p("A tree model predicts with its own code in every session", "predict and predict_proba of a converted tree model give what they would give if it were the only model of the session, whichever models are converted or used before and in between.",
  "every history of conversions (also failing ones) and predictions", "Needs histories with several models alive.", [TP+":Wrapper.predict", TP+":Wrapper._build_classifier", "emlearn/common.py:CompiledClassifier"])
p("Predictions are labels of the training data", "predict of a converted classifier returns labels the estimator was fitted with (scikit-learn encodes them as 0, 1, ... and decodes in its own predict).",
  "every label set", "Tests use labels that are 0..n-1 already.", [TP+":Wrapper.predict", NB+":Wrapper.predict"])
p("Rounding errors of relu and identity networks",
  "A network of relu and identity layers run in float32 gives, for every output, a finite number within rel(g) * mag of the output computed on real numbers from the same weights and input, where g is the number of roundings on the longest path (the sum over layers of inputs + 2), rel(g) = (1 + 2^-24)^g - 1 (at most 2 g 2^-24), and mag is the output computed with absolute values; eml_net_infer, eml_net_regress and eml_net_regress1 all give it, and eml_net_predict names the class of the largest exact output whenever it leads by more than the two bounds (with one output: compares correctly with 1/2 whenever it is further from 1/2 than the bound).",
  "all layer counts and sizes, all finite float32 weights, biases and inputs that stay below 2^100, any class",
  "the bound is over all weights and inputs; no test set covers the rounding of every combination",
  ["emlearn/eml_net.h:eml_net_forward", "emlearn/eml_net.h:eml_net_infer", "emlearn/eml_net.h:eml_net_predict", "emlearn/eml_net.h:eml_net_regress"])
p("Rounding errors of the Mahalanobis distance and the outlier decision",
  "eml_mahalanobis_distance_squared in float32 is within rel(2n+4) times the distance computed with absolute values of the exact squared Mahalanobis distance; and eml_elliptic_envelope_predict gives exactly the decision of exact arithmetic (outlier iff -distance < offset) whenever the exact distance is further than that bound from the offset.",
  "all precision matrices, means, offsets and feature vectors of finite float32 numbers below 2^100, dimension below 46341",
  "quantifies over all real-valued geometry; rounding near the boundary cannot be enumerated",
  ["emlearn/eml_distance.h:eml_mahalanobis_distance_squared", "emlearn/eml_distance.h:eml_elliptic_envelope_predict"])
p("Networks with any activation, approximate weights and inputs",
  "Suppose the weights and inputs in use differ by known amounts from the intended real ones, and the C library's expf, logf and tanhf have known errors. Then every output of eml_net_infer and (with three or more outputs) every probability of eml_net_predict_proba is within an explicitly computed bound of the output of the intended network on the intended input, for relu, identity, logistic, tanh and softmax layers; eml_net_predict names the intended network's class whenever it leads by more than the bounds.",
  "all networks, all intended weights and inputs, all float32 approximations of them, all libm implementations within the stated errors",
  "error propagation through layers holds for all weights and inputs or not at all",
  ["emlearn/eml_net.h:eml_net_infer", "emlearn/eml_net.h:eml_net_expit", "emlearn/eml_net.h:eml_net_softmax", "emlearn/eml_net.h:eml_net_predict_proba"])
NETPY="emlearn/net.py"
p("Converted network regressors return the values of the fitted network",
  "A fitted network with one output (MLPRegressor, or Keras layers) converted with return_type='regressor' and the method left out or 'loadable' returns from predict(X) one finite number per row, within an explicit bound of the fitted network evaluated on real numbers at that row. The bound accounts for the weights written with six decimals, the features sent with eight, float32 rounding in every layer, the C library's expf, logf and tanhf, and the six decimals of the answer. MLP estimators are converted layer by layer (hidden activation everywhere but the last layer); without a hidden layer ValueError.",
  "all networks with finite weights up to 2^126 and layers up to 8388606 inputs, all matrices of such features that fit the line buffer, all C libraries within the stated errors, away from overflow",
  "the bound is over all weights, inputs and library implementations; tests compare a few fitted models",
  [NETPY+":Wrapper.predict", NETPY+":convert_sklearn_mlp", NETPY+":c_generate_net_loadable", "emlearn/eml_net.h:eml_net_regress1", "emlearn/common.py:CompiledClassifier.regress"])
p("Converted network classifiers return the class of the fitted network",
  "A fitted network converted with return_type='classifier' returns from predict(X), for every accepted method, exactly one class per row: with one output 1 if the exact output is above 1/2 and 0 if below, whenever it is further from 1/2 than the error bound of C89; with more outputs the index of the largest exact output, whenever it leads every other by more than the two bounds.",
  "all networks, matrices and C libraries as in C89, all classes",
  "the margin condition quantifies over real-valued outputs of all networks",
  [NETPY+":Wrapper.predict", "emlearn/eml_net.h:eml_net_predict", "emlearn/common.py:CompiledClassifier.predict"])
p("Converted network classifiers return the probabilities of the fitted network",
  "With three or more outputs predict_proba(X) returns for every row and class a number within the bound of C89 of the fitted network's output; with one output y it returns numbers within the bound of 1 - y and y.",
  "all networks with one output or at least three, all matrices and C libraries as in C89",
  "all weights and inputs",
  [NETPY+":Wrapper.predict_proba", "emlearn/eml_net.h:eml_net_predict_proba", "emlearn/common.py:CompiledClassifier.predict_proba"])
p("Options of convert for networks",
  "A well-formed network is accepted exactly with return_type 'classifier' or 'regressor' and the method left out or 'loadable', or with return_type 'classifier' and method 'inline', without use_fixedpoint; all accepted methods predict the same classes; other methods are a ValueError; an activation function that is not one of the five is never accepted.",
  "all networks, method strings, return types and inputs",
  "all combinations of options and all networks",
  [NETPY+":Wrapper.__init__", NETPY+":c_activation_function", "emlearn/convert.py:convert"])
p("A network refuses rows with a wrong number of columns",
  "predict(X) and predict_proba(X) of a converted network raise when X has another number of columns than the network has inputs.",
  "all networks and all matrices of another width",
  "error codes of the compiled program on every shape",
  [NETPY+":Wrapper.predict", "emlearn/eml_net.h:eml_net_infer", "emlearn/common.py:CompiledClassifier"])
p("Probabilities of networks with two outputs",
  "With two outputs (a softmax over two classes, as Keras models have) predict_proba(X) returns the two outputs, in order.",
  "all networks with two outputs and all inputs",
  "all weights and inputs",
  [NETPY+":Wrapper.predict_proba", "emlearn/eml_net.h:eml_net_predict_proba"])
p("Networks can be converted with use_fixedpoint",
  "Some well-formed network is accepted by the network converter with use_fixedpoint=True.",
  "all networks and options",
  "impossibility over all networks",
  [NETPY+":Wrapper.__init__", NETPY+":c_generate_net_inline"])
p("Benchmark data is the full-period Park-Miller sequence",
  "The generator multiplies by 48271 modulo 2^31-1 although it only uses 32-bit unsigned arithmetic; from state 1 it takes all 2^31-2 states before repeating; eml_benchmark_fill writes exactly the first n elements, element i being the nearest float32 to 48271^(i+1) mod (2^31-1), all finite, and nothing else.",
  "all states, all pairs of positions in the period, all buffers and lengths",
  "the period has two billion states",
  ["emlearn/eml_benchmark.h:eml_lcg_parkmiller", "emlearn/eml_benchmark.h:eml_benchmark_fill"])
p("Program sizes are those printed by size -A",
  "get_program_size reports flash as .text + .data + .rodata and RAM as .data + .bss for every list of sections, in every order and column layout; missing sections other than .text count zero; without .text it raises.",
  "all section lists with distinct names, all column layouts of the output",
  "all texts the tool can print",
  ["emlearn/evaluate/size.py:parse_binutils_size_a_output", "emlearn/evaluate/size.py:run_binutils_size"])
p("The compute cost estimate is proportional to the number of decision nodes evaluated",
  "compute_cost_estimate(model, X) is a constant times the number of decision nodes evaluated for a row of X, averaged over the rows and added over the trees.",
  "all tree models and datasets",
  "all trees and datasets",
  ["emlearn/evaluate/trees.py:compute_cost_estimate"])
p("Evaluation time of a converted tree",
  "For every input the loop of the generated loadable code runs, for each tree, exactly as many passes as the fitted tree has decision nodes on the path of that input (one if the tree is a single leaf), which is never more than the depth of the tree.",
  "all convertible tree models (hard, soft, regression), all trees in them, all integer feature vectors",
  "running time on every input of every model",
  ["emlearn/trees.py:flatten_forest", "emlearn/trees.py:remove_duplicate_leaves", "emlearn/trees.py:generate_c_nodes", "emlearn/eml_trees.h:eml_trees_predict_tree"])
p("Generated filterbank declarations hold the filterbank",
  "For every sparse filterbank with finite coefficients and every valid identifier, a C compiler reads from the text of sparse_filterbank_serialize exactly the constants and arrays <name>_bands, _starts, _ends, _length with the given integers and <name>_lut with each coefficient within half a millionth, in order, plus the optional parameters that were given; unequal numbers of starts and ends raise AssertionError.",
  "all filterbanks, names and options",
  "all tables of all sizes and values",
  ["emlearn/signal.py:sparse_filterbank_serialize", "emlearn/cgen.py:array_declare", "emlearn/cgen.py:constant_declare"])
p("Generated window files hold the window",
  "For every window, length, valid name and line width, a C compiler reads from the file written by eml-window-function the array <name> with each value within half a millionth and the constant <name>_length, and nothing else.",
  "all windows, names and line widths",
  "all tables of all sizes; wrapping depends on every character of the text",
  ["emlearn/tools/window_function.py:window_function", "emlearn/tools/window_function.py:main"])
p("Generated mel filterbank files hold the filterbank and its parameters",
  "For every filterbank, valid name, line width and parameters, a C compiler reads from the file written by eml-mel-filterbank the filterbank, the frequencies, and the FFT length, samplerate, lowest and highest frequency used.",
  "all filterbanks, names, line widths and parameters",
  "all tables of all sizes; wrapping depends on every character of the text",
  ["emlearn/tools/mel_filterbank.py:mel_filterbank", "emlearn/tools/mel_filterbank.py:main"])
p("Generated table files respect the line width",
  "No line of the code generated by the two tools is longer than --linewrap, whatever names and values; a width below 1 is a ValueError; wrapping keeps the words of the text exactly when every word fits in a line.",
  "all names, values and widths, all texts",
  "all texts of all lengths",
  ["emlearn/tools/window_function.py:window_function", "emlearn/tools/mel_filterbank.py:mel_filterbank"])
p("A filterbank with the printed coefficients is close to the dense product",
  "In exact arithmetic eml_sparse_filterbank, run with coefficients within half a millionth of those sparse_filterbank computed, returns the dense product of the filters with the input within half a millionth of the sum of the absolute inputs.",
  "all contiguous filterbanks, inputs and admissible printed coefficients",
  "all filterbanks and inputs",
  ["emlearn/eml_audio.h:eml_sparse_filterbank", "emlearn/signal.py:sparse_filterbank", "bindings/eml_audio.cpp:sparse_filterbank"])
p("The options of eml-mel-filterbank can be turned off",
  "--normalize False and --htk False turn the option off; without the options filters are normalised and not HTK style.",
  "all arguments of the two options",
  "all argument texts",
  ["emlearn/tools/mel_filterbank.py:parse"])
p("A converted EllipticEnvelope returns the Mahalanobis distances of the estimator",
  "score_samples of a converted EllipticEnvelope returns, for every row whose calculation does not overflow float32, minus the squared Mahalanobis distance with the fitted location and precision, up to a bound made of the printed decimals and float32 rounding; mahalanobis returns the distance itself.",
  "all fitted estimators of every size, all datasets of finite rows",
  "all estimators, all rows",
  ["emlearn/distance.py:Wrapper.score_samples", "emlearn/distance.py:generate_code", "emlearn/eml_distance.h:eml_elliptic_envelope_predict"])
p("A converted EllipticEnvelope decides as the estimator does away from the boundary",
  "predict returns 1 for rows whose minus distance exceeds offset_ by more than the error bound, -1 for rows where it is below by more than the bound, and one of the two otherwise.",
  "all fitted estimators, offsets and datasets",
  "all estimators, all rows",
  ["emlearn/distance.py:Wrapper.predict"])
p("A converted EllipticEnvelope refuses rows with a wrong number of columns",
  "mahalanobis, score_samples and predict never return a result when a row has a wrong number of columns; they raise AssertionError at the first one.",
  "all datasets with at least one such row",
  "all datasets",
  ["emlearn/distance.py:squared_mahalanobis_distance", "emlearn/distance.py:Wrapper.mahalanobis"])
p("Scoring finite rows with a converted EllipticEnvelope does not raise FloatingPointError",
  "mahalanobis, score_samples and predict do not raise for rows of finite numbers whose distance the generated program can compute.",
  "all finite rows and estimators",
  "all magnitudes, including those where products underflow",
  ["emlearn/distance.py:squared_mahalanobis_distance", "emlearn/bayes.py:numpy.seterr"])
p("Methods accepted for EllipticEnvelope",
  "convert of an EllipticEnvelope works with the default method; an unknown method is a ValueError.",
  "all values of method",
  "all values of method",
  ["emlearn/distance.py:Wrapper.__init__", "emlearn/convert.py:convert"])
p("The decision boundary in the generated code is offset_",
  "For every estimator and offset up to 2^126 the generated code compiles and its decision boundary is the float32 nearest to offset_, within 2^-23 relative error or 2^-140.",
  "all offsets",
  "all float64 offsets and their decimal texts",
  ["emlearn/distance.py:generate_code"])
p("The fixed-point score of naive Bayes approximates the logarithm of the normal density",
  "For every value, mean and standard deviation that fit, the score the generated classifier gives a feature is log2 of the normal density, up to an error that grows with the square of the distance from the mean.",
  "all values, means and standard deviations in 16.16 fixed point",
  "all 32 bit inputs, against a real function",
  ["emlearn/eml_bayes.h:eml_bayes_logpdf", "emlearn/eml_bayes.h:eml_bayes_logpdf_std"])
p("A converted GaussianNB returns a class of highest likelihood",
  "predict returns, for every row, a class of the estimator whose likelihood under the fitted normal distributions is the highest, up to the stated errors of the scores compared.",
  "all fitted estimators with any number of classes and features, all datasets",
  "all estimators, all rows",
  ["emlearn/bayes.py:Wrapper", "emlearn/bayes.py:generate_c", "emlearn/eml_bayes.h:eml_bayes_predict"])
p("A converted GaussianNB returns the class of highest posterior probability, as the estimator does",
  "predict takes the class priors of the estimator into account.",
  "all fitted estimators and rows",
  "all estimators, all rows",
  ["emlearn/bayes.py:Wrapper.__init__"])
p("What converting a GaussianNB refuses",
  "An unknown method is an error, so is a variance of zero, and so is a row with a wrong number of columns.",
  "all methods, estimators and rows",
  "all values",
  ["emlearn/bayes.py:Wrapper", "emlearn/eml_bayes.h:eml_bayes_predict"])
p("A converted mixture scores like the fitted one",
  "score_samples of a converted GaussianMixture or BayesianGaussianMixture returns for every row the logarithm of the density of the fitted mixture, up to a stated error that covers the six printed decimals of the parameters, float32 arithmetic, the C library and the printed result.",
  "all fitted mixtures of any covariance type, any numbers of components and features, all sets of rows within range",
  "the error must be bounded for all parameters and rows; tests compare a few with a loose tolerance",
  ["emlearn/mixture.py:Wrapper.score_samples", "emlearn/mixture.py:build_executable", "emlearn/eml_mixture.h:eml_mixture_score"])
p("A converted mixture gives the fitted probabilities",
  "predict_proba of a converted mixture returns for every row and component the probability of the component given the row, and predict_log_proba the logarithm of weight times density, up to stated errors.",
  "all fitted mixtures of any covariance type, all sets of rows within range",
  "all parameters and rows",
  ["emlearn/mixture.py:Wrapper.predict_proba", "emlearn/mixture.py:Wrapper.predict_log_proba", "emlearn/eml_mixture.h:eml_mixture_predict_proba"])
p("A converted mixture predicts the most probable component",
  "predict of a converted mixture returns for every row a component of highest probability.",
  "all fitted mixtures, all sets of rows",
  "all parameters and rows",
  ["emlearn/mixture.py:Wrapper.predict", "emlearn/cgen.py:constant"])
p("What a converted mixture refuses",
  "A row with a wrong number of columns, parameters that are infinite or not numbers, an unknown covariance type and an array of wrong dimensions are errors wherever they occur; the method option makes no difference.",
  "all fitted mixtures, all sets of rows",
  "all positions of the bad row or number",
  ["emlearn/mixture.py:Wrapper.__init__", "emlearn/mixture.py:convert_to_full", "emlearn/mixture.py:predict"])
p("convert accepts the supported estimators and no others",
  "convert refuses with a ValueError every estimator whose class name (or explicit kind) is not one of the documented ones, fails for an object that does not have the attributes of its kind, and converts an estimator with an explicit kind as if its class had that name.",
  "all estimators, class names and options",
  "all names and attribute sets; the class name is matched as text",
  ["emlearn/convert.py:convert", "emlearn/trees.py:Wrapper.__init__"])
p("convert, then predict",
  "For every supported estimator, predict of what convert returns gives the predictions of the fitted estimator: the majority class or mean value of the trees, the majority of the nearest neighbours, a class of highest likelihood, inside or outside of the envelope, a component of highest probability, the class of the network, each up to the stated error.",
  "all fitted estimators of each kind, all options that are accepted, all sets of rows within range",
  "all parameters, options and rows, through one entry point",
  ["emlearn/convert.py:convert", "emlearn/convert.py:Model.predict"])
p("Regressors give regression values",
  "predict of a converted regressor returns values, not classes, with the default options.",
  "all fitted regressors, all rows",
  "all estimators and rows",
  ["emlearn/convert.py:convert", "emlearn/net.py:Wrapper.__init__"])
p("An option is honoured or refused",
  "An option given to convert (method, dtype, return_type, leaf_bits, use_fixedpoint, any other keyword) has its effect, or is an error if the kind of model does not have it.",
  "all kinds of estimators, all combinations and values of options",
  "all combinations",
  ["emlearn/convert.py:convert"])
p("The documented methods of a model",
  "The object returned by convert has predict_proba, giving the probabilities of the fitted estimator, and score_samples.",
  "all kinds of estimators, all sets of rows",
  "all estimators and rows",
  ["emlearn/convert.py:Model"])
p("Keras models end to end",
  "For a Keras Sequential model of Dense, Activation, ReLU, Softmax and Dropout layers in which every activation layer follows a Dense layer without an activation of its own, the model returned by convert computes the layers of the Keras model one after the other: its classes where they are clear, its outputs and its regression values up to the stated error.",
  "all such models of any number and sizes of layers, all rows within range",
  "all layer sequences, weights and rows",
  ["emlearn/net.py:convert_keras", "emlearn/convert.py:convert"])
p("The FFT is accurate in float32",
  "After eml_fft_fill for a length n = 2^m, eml_fft_forward in float32 gives finite numbers, each as a complex number within 2 m (e + 8*2^-24) n B of the discrete Fourier transform, where e bounds the error of cosf and sinf and B bounds the absolute value of the complex samples; likewise with any stored table.",
  "all power-of-two lengths up to 2^31, all signals whose magnitude is far from overflow and underflow, all tables near enough",
  "the rounding errors of log2(n) stages must be bounded for all signals; tests compare one or two",
  ["emlearn/eml_fft.h:eml_fft_fill", "emlearn/eml_fft.h:eml_fft_forward"])
p("rfft is accurate in float32",
  "eml_audio.rfft of 2^m float32 samples of absolute value at most B returns the real parts of the discrete Fourier transform, within 2 m (e + 8*2^-24) n B.",
  "all lengths 2^m below 2^31, all samples",
  "all signals and lengths",
  ["bindings/eml_audio.cpp:rfft_py"])
p("sparse_filterbank stays inside its arrays",
  "eml_audio.sparse_filterbank returns for filter i the sum of coefficient times input over the indices starts[i] to stops[i], and refuses indices outside of the input and too few coefficients.",
  "all index lists, coefficients and inputs",
  "all indices, including ones outside",
  ["bindings/eml_audio.cpp:sparse_filterbank_py", "emlearn/eml_audio.h:eml_sparse_filterbank"])
p("Sparse filterbanks are accurate in float32",
  "Every answer of the sparse filterbank in float32 is within 2 (w + 1) 2^-24 of the exact sum, relative to the sum of the absolute values of its w products.",
  "all index lists inside the input, all finite coefficients and inputs that do not overflow",
  "the rounding errors must be bounded for all inputs",
  ["emlearn/eml_audio.h:eml_sparse_filterbank"])
p("Window and mean are accurate in float32",
  "eml_signal_hann_apply multiplies sample i by (1 - cos(2 pi i / (n-1)))/2 up to a relative error of the error of cos plus 5*2^-24, and eml_signal_mean gives the mean up to (n+3) 2^-24 times the largest absolute value.",
  "all lengths from 2, all finite samples that do not overflow",
  "all samples and lengths",
  ["emlearn/eml_vector.h:eml_signal_hann_apply", "emlearn/eml_vector.h:eml_signal_mean"])
p("The installed Arduino library is complete",
  "When install_arduino_library returns, the directory emlearn in the libraries directory has every file eml_*.h and VERSION.txt of the include directory with the same contents; no other file or directory is created or changed, even when the installation is interrupted or fails; and it returns whenever nothing is in the way.",
  "all file systems, all include and libraries directories, all interruption points",
  "all directory contents and every point at which it can be interrupted",
  ["emlearn/arduino/install.py:install_arduino_library"])
p("An installed library is not overwritten by accident",
  "install_arduino_library without update raises and changes nothing if the library is already there; with update the library afterwards has the headers of the new version and no others.",
  "all file systems",
  "all earlier contents of the library",
  ["emlearn/arduino/install.py:install_arduino_library"])
p("An interrupted installation can be repeated",
  "After an installation interrupted at any point, running the same command again completes it.",
  "all interruption points, also between two bytes of a file",
  "all crash points",
  ["emlearn/arduino/install.py:install_arduino_library"])
p("A returning installation has installed the headers",
  "install_arduino_library returns only if the headers were found and installed.",
  "all file systems and include directories",
  "all paths and contents",
  ["emlearn/arduino/install.py:install_arduino_library", "emlearn/utils/fileutils.py:ensure_dir_single"])
p("Fixed-point network layers",
  "eml_net_forward_q16 computes the layer, activation(inputs * weights + biases), in fixed point, or reports an error.",
  "all inputs, weights, biases and activations",
  "all layers",
  ["emlearn/eml_net_fixedpoint.h:eml_net_forward_q16"])
p("Log entries can be read back",
  "A sequence of log entries made with the macros of eml_log.h is a text in logfmt from which a reader gets back exactly the events, keys and values: integers and strings exactly, floating-point values up to 0.00005. Nothing is written unless logging is enabled.",
  "all sequences of entries, all keys and values",
  "the text must be unambiguous for all events, keys and values",
  ["emlearn/eml_log.h:EML_LOG_BEGIN", "emlearn/eml_log.h:EML_LOG_ADD", "emlearn/eml_log.h:EML_LOG_ADD_INTEGER", "emlearn/eml_log.h:EML_LOG_ADD_BOOL", "emlearn/eml_log.h:EML_LOG_ADD_FLOAT", "emlearn/eml_log.h:EML_LOG_ADD_ARRAY", "emlearn/eml_log.h:EML_LOG_END"])
p("IIR filters stay accurate in float32 however long the stream is",
  "If every section of a filter is stable and the signal is far from overflow, then every output sample of the filter, computed in float32 with the state carried from sample to sample, is finite and within a fixed distance of the output of the difference equations with the stored coefficients. The distance depends on the coefficients and on the size of the samples and not on the length of the stream.",
  "all cascades of stable sections, all streams of bounded samples of any length",
  "rounding errors are fed back, so that an error may grow for ever; only an induction over the stream excludes it",
  ["emlearn/eml_iir.h:eml_iir_filter", "emlearn/eml_iir.h:eml_biquad_tdf2", "bindings/eml_signal.cpp:iirfilter"])
p("Which IIR sections keep bounded signals bounded",
  "A second-order section turns all bounded signals into bounded signals exactly when both of its poles lie inside the unit circle; its output is then at most (|b0|+|b1|+|b2|)/((1-|p1|)(1-|p2|)) times larger than its input.",
  "all sections and all bounded signals",
  "infinitely long signals",
  ["emlearn/eml_iir.h:eml_biquad_tdf2"])
p("predict_proba with soft voting is the mean of the leaf proportions",
  "For a tree classifier converted with leaf_bits 2 to 8 (inline or loadable, int16_t or float features), predict_proba returns, for every row and class, the mean over the trees of the class proportions in the leaf the row reaches, up to half a quantisation level plus 1/255 plus the float32 and printing errors. Away from the thresholds these are the leaves scikit-learn reaches.",
  "all fitted forests with proportions, all leaf_bits from 2 to 8, all matrices of rows",
  "all models, all rows; quantisation, float sums over any number of trees and decimal printing add up",
  ["emlearn/trees.py:Wrapper", "emlearn/trees.py:quantize_probabilities_into_byte", "emlearn/trees.py:generate_c_inlined", "emlearn/eml_trees.h:eml_trees_predict_proba"])
p("predict with soft voting returns the class with the largest mean proportion",
  "For a tree classifier converted with leaf_bits 2 to 8, predict returns the class whose mean proportion over the trees is the largest (the class scikit-learn returns).",
  "all fitted forests with proportions, all leaf_bits from 2 to 8, all matrices of rows",
  "all models, all rows",
  ["emlearn/trees.py:Wrapper", "emlearn/trees.py:quantize_probabilities_into_byte", "emlearn/trees.py:generate_c_inlined", "emlearn/eml_trees.h:eml_trees_predict"])
p("Files of inline tree models define what their users call, and nothing twice",
  "The C file that save(name) returns for a tree model with inline inference defines the functions NAME_tree_0 ... NAME_tree_(n-1), one per tree, a leaf table NAME_leaves exactly when leaves are not class numbers, NAME_predict, and for classifiers (unless turned off) NAME_predict_proba; no identifier is defined twice; each of the user functions calls every tree function once, in order.",
  "all converted tree models of any number and depth of trees, all valid names",
  "the text is generated from the model; brackets, names and calls must be right for every forest",
  ["emlearn/trees.py:generate_c_inlined", "emlearn/trees.py:generate_c_forest", "emlearn/trees.py:Wrapper", "emlearn/cgen.py:array_declare"])
p("The tree functions in the saved file are the fitted trees",
  "In the C file of a tree model with inline inference, the function NAME_tree_i, read as C, returns for every row the class (or, for a regressor, the value up to six printed decimals and rounding to float) of the leaf that row reaches in tree i of the fitted model, comparing each feature with the printed threshold.",
  "all fitted forests, all rows, all valid names",
  "the nested text is generated recursively; it has to mean the tree for all trees and all rows",
  ["emlearn/trees.py:generate_c_inlined", "emlearn/cgen.py:constant", "emlearn/trees.py:Wrapper"])
p("The file of a loadable tree model holds the model",
  "The C file that save(name) returns for a loadable tree model, read as C, initialises a struct NAME whose counts and arrays are exactly the converted model, and defines NAME_predict (and NAME_predict_proba) as calls of the library functions with that struct and the caller's arguments. So a C program including the file computes the majority vote of the fitted trees.",
  "all loadable tree models, all valid names, all rows",
  "the text has to mean the model for all models",
  ["emlearn/trees.py:generate_c_loadable", "emlearn/trees.py:generate_c_nodes", "emlearn/cgen.py:array_declare", "emlearn/eml_trees.h:eml_trees_predict"])
p("The file of a nearest neighbours model holds the model",
  "The C file that save(name) returns for a nearest neighbours model, read as C, initialises a struct NAME with exactly the training rows, labels, counts and k of the converted model; no identifier is defined twice.",
  "all training sets, all k, all valid names",
  "the text has to mean the model for all training sets",
  ["emlearn/neighbors.py:c_generate_neighbors", "emlearn/neighbors.py:neighbors_model_init", "emlearn/cgen.py:array_declare", "emlearn/cgen.py:struct_declare"])
p("save(name, file) writes the returned code to that file and touches nothing else",
  "save returns the code of the model under the given name, or without a name under the file's stem, and writes exactly this code to the file and to no other; without a file, or when it raises, no file changes; without both it raises. The first positional argument is the name.",
  "all models, names, paths and contents of the file system",
  "all paths and all prior contents",
  ["emlearn/trees.py:Wrapper.save", "emlearn/neighbors.py:Wrapper.save", "emlearn/bayes.py:Wrapper.save", "emlearn/distance.py:Wrapper.save", "emlearn/mixture.py:Wrapper.save", "emlearn/net.py:Wrapper.save"])
p("Models saved under different names can be used in one program",
  "Two models saved under different names define no common identifier, and a saved model defines no identifier of the emlearn library, so the files can be included together.",
  "all pairs of saved models and names",
  "all names",
  ["emlearn/trees.py:generate_c_inlined", "emlearn/trees.py:generate_c_loadable", "emlearn/neighbors.py:c_generate_neighbors", "emlearn/cgen.py:assert_valid_identifier"])
p("NAME_predict in the saved file returns the model's answer",
  "In the C file of a tree model with inline inference, the function NAME_predict, read as C and run statement by statement on any row of at least the model's number of features, calling the tree functions of the same file, has no undefined behaviour and returns: for a classifier a class no other class has more votes than (the first of them), with soft voting the class with the largest mean proportion up to the rounding of the leaves, for a regressor the mean of the trees' values up to the stated rounding.",
  "all fitted forests of any number and depth of trees, all rows, all valid names, int16_t and float features",
  "the text is generated from the model and unit tests run a few models; the loops and the table look-ups must be right for every forest and row",
  ["emlearn/trees.py:generate_c_inlined", "emlearn/trees.py:generate_c_forest", "emlearn/trees.py:Wrapper.save"])
p("NAME_predict_proba in the saved file fills in the proportions",
  "In the C file of a tree classifier with inline inference, the function NAME_predict_proba, read as C and run on any row and any array of at least the number of classes, has no undefined behaviour, returns 0, writes the proportion of the trees voting for each class (with soft voting the mean proportion, up to the rounding of the leaves) and leaves the other elements of the array alone.",
  "all fitted forests, all rows, all arrays, all valid names, int16_t and float features",
  "the text is generated from the model; the writes to the caller's array must be right for every forest, row and array",
  ["emlearn/trees.py:generate_c_inlined", "emlearn/trees.py:generate_c_forest", "emlearn/trees.py:Wrapper.save"])
p("The C file of a neural network holds the network that runs",
  "The C file that save writes for a converted network defines one EmlNet struct under the model's name whose layers, sizes, activation functions, weights and biases, read as C, are exactly the network that predict of the wrapper runs, with buffers of the stated length; the functions NAME_predict, NAME_regress and NAME_regress1 pass their arguments and this struct to the library function of the same purpose.",
  "all networks (any number of layers and sizes within int32_t, all weights that can be compiled, all activation functions), all valid names",
  "the text is generated from the model; the arrays, the table of layers and the pointers between them must be right for every network",
  ["emlearn/net.py:c_generate_net_loadable", "emlearn/net.py:c_generate_layer_data", "emlearn/net.py:c_activation_function", "emlearn/net.py:Wrapper.save", "emlearn/cgen.py:array_declare", "emlearn/cgen.py:struct_init"])
p("The C file of an elliptic envelope holds the envelope that runs",
  "The C file that save writes for a converted elliptic envelope consists of exactly two float arrays, one EmlEllipticEnvelope struct and one function, with distinct names; read as C, the struct has the number of features, means and precisions of the envelope that predict of the wrapper runs, and its decision boundary is written as a constant whose nearest float is that envelope's; the function passes its row and this struct to eml_elliptic_envelope_predict and returns the distance.",
  "all fitted envelopes (any number of features, all numbers), all valid names, any str() that reads back",
  "the text is generated from the model; arrays, sizes and the pointers to them must be right for every model and name",
  ["emlearn/distance.py:generate_code", "emlearn/distance.py:Wrapper.save", "emlearn/cgen.py:array_declare"])
p("The C file of a Gaussian mixture holds the mixture that runs",
  "The C file that save writes for a converted Gaussian mixture consists of exactly four float arrays, one EmlMixtureModel struct and three functions, with distinct names; read as C, the struct is the mixture that the program of the wrapper runs; NAME_predict_log_proba, NAME_score and NAME_predict_proba pass their arguments and this struct to the library function of the same purpose.",
  "all wrappers (any number of components and features within int32_t, all numbers that compile), all valid names",
  "the text is generated from the model; arrays, sizes and the order of the struct's fields must be right for every model and name",
  ["emlearn/mixture.py:generate_code", "emlearn/mixture.py:Wrapper.save", "emlearn/mixture.py:build_executable", "emlearn/cgen.py:array_declare", "emlearn/cgen.py:struct_init"])
p("The C file of a naive Bayes model holds the model that runs",
  "The C file that save writes for a converted naive Bayes classifier consists of exactly one array of summaries, one EmlBayesModel struct and one function, with distinct names; read as C, the struct has the numbers of classes and features and the array, of exactly their product of rows in class-major order, has the fixed-point mean, deviation and logarithm of the model that predict of the wrapper runs (each written as EML_Q16_FROMFLOAT of a constant whose nearest double gives that number); the function passes its row and this struct to eml_bayes_predict.",
  "all estimators (any number of classes and features, all finite numbers that compile), all valid names, any str() that reads back",
  "the text is generated from the model; the order of the rows, the size of the array and the fields must be right for every model and name",
  ["emlearn/bayes.py:generate_c", "emlearn/bayes.py:c_struct_init", "emlearn/bayes.py:c_tofixed", "emlearn/bayes.py:Wrapper.save"])
with open("/verif/properties.jsonl","w") as f:
    for q in P: f.write(json.dumps(q)+"\n")
print(len(P))
