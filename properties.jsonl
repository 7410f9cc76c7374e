{"id": "C01", "title": "Index compression is lossless", "statement": "Compressing a list of feature indexes with the binary format's index codec and decompressing the result returns exactly the original list, whatever the order of the indexes and however large the gaps.", "quantifier": "Every list, of every length, of 32-bit unsigned indexes.", "why_tests_cant": "The codec works on wrapping differences and a variable number of 7-bit groups; the input space is all sequences of 2^32 values and the interesting carries and wrap-arounds depend on consecutive pairs.", "anchors": ["include/sol/pario/compress.h:comp_index", "include/sol/pario/compress.h:decomp_index", "include/sol/pario/compress.h:run_len_encode", "include/sol/pario/compress.h:run_len_decode"]}
{"id": "C02", "title": "Variable-length codes are self-delimiting and in bounds", "statement": "Decoding a code written by the encoder consumes exactly the bytes the encoder produced and never looks at a byte after them, so codes can be concatenated. A code has at least one byte and, for values below 2^32, at most five. A buffer whose last byte still has its continuation bit set makes the decoder read past the end.", "quantifier": "Every 64-bit value for the length, every value below 2^32 for the decoded value, every byte string following the code.", "why_tests_cant": "All 2^32 values and all continuations; the memory-safety half speaks about bytes the decoder must not touch, which a test on a larger buffer cannot observe.", "anchors": ["include/sol/pario/compress.h:run_len_encode", "include/sol/pario/compress.h:run_len_decode"]}
{"id": "C03", "title": "Binary data files round-trip", "statement": "Writing any sequence of labelled sparse points with the binary writer and then reading the file with the binary reader yields exactly the same sequence of points (label, indexes, values bit for bit), followed by end-of-file.", "quantifier": "Every finite sequence of points with any 32-bit labels, any 32-bit indexes in any order (including no features) and any 32-bit value patterns, provided index and value lists have the same length.", "why_tests_cant": "Unbounded sequences of points with unbounded feature counts; record framing errors only show on particular length combinations.", "anchors": ["src/sol/pario/binary_writer.cc:Write", "src/sol/pario/binary_reader.cc:Next", "include/sol/pario/compress.h"]}
{"id": "C04", "title": "Reading a cut-off binary file", "statement": "When a binary data file is cut at an arbitrary byte, the reader returns exactly the records that are wholly contained and then a status other than OK - except when the cut falls inside the 8-byte feature count of a record: then the reader reports success for that record as well and hands out a point with the right label and no features.", "quantifier": "Every sequence of points and every cut position in the file it is written to.", "why_tests_cant": "The number of (file, cut) pairs is unbounded and the faulty window depends on the position inside a record.", "anchors": ["src/sol/pario/binary_reader.cc:Next", "src/sol/pario/file_reader.cc:Read"]}
{"id": "C05", "title": "Lines are read whole whatever their length", "statement": "Reading a text file line by line returns exactly the lines of the file, in order, each complete, even when a line is longer than the current buffer; then it reports end-of-file. The line buffer is never overrun.", "quantifier": "Every file content without NUL bytes, every line length and every initial buffer size from 2 to 2^30, lines below 2^29 bytes (the buffer length is an int that doubles on demand). A NUL byte inside a line makes data disappear.", "why_tests_cant": "Line lengths relative to the buffer size form an unbounded two-dimensional space; boundary cases recur at every doubling.", "anchors": ["src/sol/pario/file_reader.cc:ReadLine", "include/sol/pario/file_reader.h"]}
{"id": "C06", "title": "Integers in text files are parsed to their value", "statement": "Parsing the decimal text of an integer (optionally signed, followed by any non-numeric character) yields that integer and stops at the first non-blank character after it; text that does not start with a number consumes nothing and is reported as not parsed. (The code breaks the edges: integers above 2147483599 in absolute value overflow a signed accumulator, a blank or a sign followed by a non-number is accepted as 0, and 1.0 is not accepted as an integer.)", "quantifier": "Every integer of absolute value up to 2147483599 (signed) or below 2^32 (unsigned), every following text starting with a terminator, any amount of leading blanks.", "why_tests_cant": "All 2^32 values and all continuations, and the digit loop is unbounded.", "anchors": ["include/sol/pario/numeric_parser.h:ParseInt", "include/sol/pario/numeric_parser.h:ParseUint"]}
{"id": "C07", "title": "Decimal fractions in text files are parsed to their value", "statement": "Parsing a decimal number sign, integer digits, '.', fraction digits, exponent yields (in exact arithmetic) that number as long as at most seven fraction digits are given and the digits fit the accumulator; further fraction digits are ignored without moving the value by 10^-7 (times the power of ten given by the exponent) or more, and the parse stops at the first non-blank after the number.", "quantifier": "Every digit string that fits the accumulator, every exponent, every following text.", "why_tests_cant": "The set of numerals is infinite; agreement on samples says nothing about carry, position counting and the digit cut-off.", "anchors": ["include/sol/pario/numeric_parser.h:ParseFloat"]}
{"id": "C08", "title": "libsvm text round-trip", "statement": "Writing points in the libsvm text format and reading the file back gives the same labels, the same features sorted by index, and the values rounded to the six printed digits, in the same order, followed by end-of-file. (The code breaks the edges: values between 1e-4 and 1e-2 lose printed digits beyond the seventh decimal; an index of 2^31 or more is printed as a negative number and rejected on reading.)", "quantifier": "Every finite sequence of points whose labels are 32-bit integers, (absolute value up to 2147483599), whose indexes are below 2^31 and with up to 2^24 features; values are six-digit decimals in the float exponent range.", "why_tests_cant": "Unbounded sequences; formatting and tokenising interact through separators and line ends.", "anchors": ["src/sol/pario/svm_writer.cc:Write", "src/sol/pario/svm_reader.cc:Next"]}
{"id": "C09", "title": "csv text round-trip", "statement": "Writing points with the csv writer (header line plus one line per point) and reading the file back gives the same points with the explicit zeros dropped, provided each point's indexes are strictly increasing, at least 1 and below the declared dimension; otherwise features can be lost without an error.", "quantifier": "Every declared dimension up to 2^24, every finite sequence of points whose values are six-digit decimals.", "why_tests_cant": "The writer walks a dense column range and a sparse list in lock step; the losses only appear for particular index patterns of unbounded size.", "anchors": ["src/sol/pario/csv_writer.cc:Write", "src/sol/pario/csv_writer.cc:SetExtraInfo", "src/sol/pario/csv_reader.cc:Next"]}
{"id": "C10", "title": "Sorting a data point", "statement": "Sorting a data point never touches memory outside its two arrays, always terminates, leaves the indexes in non-decreasing order and keeps every index attached to its own value (the multiset of index/value pairs is unchanged). A point whose indexes already increase strictly is not modified.", "quantifier": "Every point of every size with arbitrary indexes, including duplicates, and arbitrary values.", "why_tests_cant": "Hand-written quicksort on two parallel arrays; all permutations with all duplicate patterns at all sizes.", "anchors": ["src/sol/pario/data_point.cc:Sort", "src/sol/pario/data_point.cc:QuickSort", "src/sol/pario/data_point.cc:IsSorted"]}
{"id": "C11", "title": "Dynamic arrays behave as sequences", "statement": "After any history of append, resize, reserve-by-growth and element writes, the elements of a vector are those of the mathematical sequence with the same history: growing keeps the old contents, shrinking keeps the prefix, append adds exactly one element at the end, and capacity is always at least the size.", "quantifier": "Every finite history of operations on a vector starting empty.", "why_tests_cant": "The set of histories is unbounded, and failures need a reallocation at the right moment.", "anchors": ["include/sol/math/vector.h:resize", "include/sol/math/vector.h:push_back", "include/sol/math/vector.h:reserve", "include/sol/math/matrix_storage.h"]}
{"id": "C12", "title": "The blocking queue is a bounded FIFO under every interleaving and loses no wake-up", "statement": "For any number of threads and every interleaving of their enqueue and dequeue calls (single and batch, not forced), the sequence of items put is the sequence of items taken followed by what is stored; the number stored never exceeds the capacity and is what size() returns between two calls; every call has exactly the effects of its operation and dequeue returns what it took. Only one thread at a time can change the queue. If no thread can continue, then no thread is in a call, or the queue is empty and all callers are taking, or it is full and all callers are putting (no lost wake-up). (A batch dequeue of zero items breaks the last part.)", "quantifier": "Every capacity, every number of threads, every schedule, every spurious wake-up.", "why_tests_cant": "Thread schedules cannot be enumerated by tests.", "anchors": ["include/sol/util/block_queue.h:Enqueue", "include/sol/util/block_queue.h:Dequeue"]}
{"id": "C13", "title": "Batch dequeue takes the oldest items; with force it can take from an empty queue", "statement": "Taking several items at once without force returns the oldest stored items in order, as many as asked for or all that are stored, at least one, in one uninterrupted go. (The code breaks this for forced batch dequeue: the wait is not re-checked in a loop, so after a spurious or stolen wake-up it reads an item nobody put and the stored count becomes negative.)", "quantifier": "Every schedule of batch and single operations with spurious wake-ups.", "why_tests_cant": "Spurious wake-ups cannot be provoked on demand in a test.", "anchors": ["include/sol/util/block_queue.h:Dequeue(batch)", "include/sol/util/block_queue.h:Enqueue(batch)"]}
{"id": "C14", "title": "The data iterator delivers every example once, in order", "statement": "Iterating over the data yields, for every schedule of the background reading threads and with spurious wake-ups, exactly the examples of the sources in the order the sources were added, each source repeated its requested number of passes. Every pass is cut into batches that are full but the last, which holds what remains (possibly nothing). When the end marker is returned everything was returned before, the end marker is returned again until another source is added, and the batch the consumer holds does not change. (With batch size zero the code returns empty batches for ever.)", "quantifier": "Every list of sources (each a finite sequence of points), all pass counts, batch size at least one, at least one batch in circulation, every sequence of calls and every interleaving of readers and consumer.", "why_tests_cant": "Thread schedules and data sizes relative to batch size are unbounded.", "anchors": ["src/sol/pario/data_iter.cc:Next", "src/sol/pario/data_iter.cc:AddReader", "src/sol/pario/data_read_task.cc:run", "include/sol/pario/mini_batch.h"]}
{"id": "C15", "title": "Iterating never hangs", "statement": "Constructing an iterator and asking for the next batch is never blocked for ever: in every reachable state in which no thread can take a step the consumer is outside of the iterator (or in its destructor), between two calls only a bounded number of steps is possible, and after as many batches as there are to deliver the end marker comes. (With no batch in circulation the constructor blocks for ever.)", "quantifier": "Every list of sources, with or without errors, pass count, batch size and number of batches in circulation (both at least one) and every schedule.", "why_tests_cant": "Absence of deadlock over all schedules is not testable.", "anchors": ["src/sol/pario/data_iter.cc:Next", "src/sol/pario/data_read_task.cc:run", "include/sol/util/block_queue.h"]}
{"id": "C16", "title": "Destroying the iterator early always terminates", "statement": "Destroying a data iterator while reading is still in progress always returns. (The code breaks this: it empties the pool of free batches with a test-then-take loop, and if the reader takes the last free batch between the test and the take, destruction blocks for ever. It does return, in a bounded number of steps, if Next was never called, or if Next returned the end marker and was not called again.)", "quantifier": "Every point of time of the destruction and every schedule.", "why_tests_cant": "The failing window is a few instructions wide; a test passes with overwhelming probability.", "anchors": ["src/sol/pario/data_iter.cc:~DataIter", "src/sol/pario/data_read_task.cc:run"]}
{"id": "C17", "title": "Read errors end the stream silently", "statement": "If a source hits a malformed record, the batches delivered contain exactly the examples before the bad record, once, whatever number of passes was asked for, nothing after it, and iteration then continues with the next source without any error visible to the consumer.", "quantifier": "Every source, every position of the first bad record, every pass count.", "why_tests_cant": "The position of the bad record relative to batch boundaries is unbounded.", "anchors": ["src/sol/pario/data_read_task.cc:run", "src/sol/pario/data_iter.cc:Next"]}
{"id": "C18", "title": "Bounded heap bookkeeping stays consistent", "statement": "In the indexed heap used for feature selection, the slot table and the position table stay inverse to each other under every operation: each feature occupies exactly one slot, a position lookup always returns that slot, and no operation accesses a table outside its bounds.", "quantifier": "Every number of features N, every heap size 1 <= K <= N, every score vector and every sequence of build, adjust and update operations with arbitrary score changes in between.", "why_tests_cant": "All histories and all score assignments; corruption shows only many operations later.", "anchors": ["include/sol/util/heap.h:Init", "include/sol/util/heap.h:AdjustHeap", "include/sol/util/heap.h:UpdateHeap", "include/sol/util/heap.h:BuildHeap", "include/sol/util/heap.h:set_N"]}
{"id": "C19", "title": "The heap holds the K best-scored features", "statement": "After building the heap every parent is ordered against its children, so its top is the worst of the kept features; offering a feature outside the heap swaps it with the top exactly when it scores strictly better, restores the order and reports the feature that was dropped. Hence starting from any build and offering every feature once, the heap keeps K features such that no dropped feature is strictly better than a kept one.", "quantifier": "Every N, every K with 1 <= K <= N, every score vector under a total order.", "why_tests_cant": "All score vectors and tie patterns of every size.", "anchors": ["include/sol/util/heap.h:BuildHeap", "include/sol/util/heap.h:UpdateHeap", "include/sol/util/heap.h:AdjustHeap"]}
{"id": "C20", "title": "Feature-selection models keep at most B features", "statement": "Models with a feature budget B (perceptron with truncation, first- and second-order online feature selection) have, after every training example, at most B non-zero weights besides the bias, in every class weight vector the non-zero coordinates lying in the same set of B features. (The code breaks this when a parameter is set on a trained second-order selection model: the next training run chooses features afresh but keeps the old weights.)", "quantifier": "Every stream of training examples with sorted, positive feature indexes, every budget B >= 1, every number of classes, any numeric behaviour of the updates.", "why_tests_cant": "All histories; the invariant couples weights, heap positions and a growing dimension.", "anchors": ["src/sol/model/olm/ogd.cc:PET", "src/sol/model/olm/fofs.cc:FOFS", "src/sol/model/olm/arow.cc:SOFS", "src/sol/model/olm/ada_fobos.cc:AdaFOBOS_OFS", "src/sol/model/olm/ada_rda.cc:AdaRDA_OFS", "include/sol/util/heap.h"]}
{"id": "C21", "title": "Prediction is the inner product, and unseen features are ignored", "statement": "The score of a class for an example is the inner product of the class weights with the example's features plus the bias; features whose index is not below the model dimension contribute nothing, and no weight outside the vector is read. Prediction does not change the model.", "quantifier": "Every model, every example with sorted indexes, every dimension. (For unsorted examples the bound check is insufficient: a witness reads out of range.)", "why_tests_cant": "All sparsity patterns against all dimensions; the out-of-range read is invisible to ordinary tests.", "anchors": ["src/sol/model/online_linear_model.cc:Predict", "include/sol/math/matrix_expression.h:dotmul", "include/sol/math/sparse_vector.h"]}
{"id": "C22", "title": "Growing the model never changes earlier predictions", "statement": "When the model grows because an example has a larger feature index, all existing weights keep their value, new weights start at zero, the dimension never shrinks, and the prediction for every example is unchanged by the growth (in exact arithmetic; in floating point an infinite feature value times a new zero weight gives NaN, which a witness shows).", "quantifier": "Every model, every new dimension, every example.", "why_tests_cant": "All dimensions and all examples; the order in which dimensions are seen is arbitrary.", "anchors": ["src/sol/model/online_linear_model.cc:update_dim", "include/sol/math/vector.h:slice_op", "src/sol/model/olm/arow.cc:update_dim"]}
{"id": "C23", "title": "The predicted class is the best-scored one", "statement": "In multi-class prediction the returned class has the highest score and is the first such class; in binary prediction the label is 1 when the score is at least 0 and -1 otherwise.", "quantifier": "Every number of classes, every score vector of a total order.", "why_tests_cant": "All score vectors including all tie patterns.", "anchors": ["src/sol/model/online_linear_model.cc:Predict", "src/sol/model/online_linear_model.cc:TrainPredict", "include/sol/loss/loss.h:Sign"]}
{"id": "C24", "title": "Training counters are consistent", "statement": "During training the number of processed examples, mistakes and model updates satisfy mistakes <= examples and updates <= examples, the iteration counter equals its initial value plus the examples processed, and the reported mistakes are exactly the examples whose prediction differed from the label.", "quantifier": "Every stream of examples, every model behaviour (prediction, loss and update are arbitrary), lazy and aggressive update modes and active learning.", "why_tests_cant": "All histories.", "anchors": ["src/sol/model/online_model.cc:Train", "src/sol/model/online_model.cc:Iterate", "src/sol/model/online_linear_model.cc:Iterate"]}
{"id": "C25", "title": "No update without loss", "statement": "An example that suffers no loss leaves weights and bias untouched; in lazy-update mode an example that is predicted correctly leaves them untouched too (models that regularise before predicting are exempt, as a witness shows). In active mode an example whose label is not queried leaves them untouched.", "quantifier": "Every model state, every example, each loss function, each base algorithm.", "why_tests_cant": "All states and examples.", "anchors": ["src/sol/model/online_linear_model.cc:Iterate", "src/sol/loss/hinge_loss.cc", "src/sol/loss/bool_loss.cc"]}
{"id": "C26", "title": "Training does not depend on how data is batched", "statement": "Training over a data source gives the same model, counters and mistakes for every batch size and for every number of batches in circulation, because it processes the examples one by one in delivery order.", "quantifier": "Every source, every two batch sizes, every schedule, every learning algorithm.", "why_tests_cant": "Batch sizes and schedules are unbounded.", "anchors": ["src/sol/model/online_model.cc:Train", "src/sol/pario/data_iter.cc:Next"]}
{"id": "C27", "title": "Perceptron mistake bound", "statement": "On data that is linearly separable with margin gamma by a unit vector and with norms bounded by R, the perceptron makes at most (R/gamma)^2 mistakes, in exact arithmetic, no matter how long the stream is.", "quantifier": "Every finite stream, every dimension, every separating vector and margin.", "why_tests_cant": "A bound over all streams of all lengths.", "anchors": ["src/sol/model/olm/perceptron.cc:Update", "src/sol/loss/bool_loss.cc", "src/sol/model/online_linear_model.cc:Iterate"]}
{"id": "C28", "title": "Passive-aggressive updates", "statement": "In exact arithmetic, for a non-zero example: after a passive-aggressive (PA) training step with the hinge loss the loss of the same example is zero, and without a bias step the new weights are exactly the nearest weights with that effect; PA-I and PA-II reach the minimum of half the squared distance plus C times the loss, or the squared loss. With more classes the same holds for the margin to the best competing class, while other classes may keep up to half of the loss (so the full loss need not vanish). PA-I never uses a step above C, PA-II uses loss/(norm^2 + 1/(2C)); with no loss nothing changes.", "quantifier": "Every weight vector, every example with non-zero norm, every C > 0, binary and multi-class.", "why_tests_cant": "Real-valued universally quantified optimality statement.", "anchors": ["src/sol/model/olm/pa.cc:PA", "src/sol/model/olm/pa.cc:PAI", "src/sol/model/olm/pa.cc:PAII", "src/sol/loss/hinge_loss.cc"]}
{"id": "C29", "title": "Updates only touch the example's features and the bias", "statement": "One training step of the first-order and diagonal second-order algorithms changes only weights whose feature occurs in the example, and the bias; all others keep their value bit for bit.", "quantifier": "Every model state, every example, every numeric behaviour (including float rounding, infinities and NaN).", "why_tests_cant": "All states and examples.", "anchors": ["src/sol/model/olm/perceptron.cc", "src/sol/model/olm/pa.cc", "src/sol/model/olm/ogd.cc", "src/sol/model/olm/arow.cc", "src/sol/model/olm/cw.cc", "include/sol/math/matrix_expression.h:CalcExp"]}
{"id": "C30", "title": "Soft-thresholding composes", "statement": "Truncating a weight by a and then by b is the same as truncating by a+b; truncation never increases the magnitude, never flips the sign and reduces it by exactly min(|w|, threshold).", "quantifier": "Every real weight, all non-negative thresholds.", "why_tests_cant": "Real-valued universal law; the lazy sparse algorithms rely on it for histories of any length.", "anchors": ["include/sol/math/operator.h:trunc", "src/sol/model/olm/ogd.cc:FOBOS_L1"]}
{"id": "C31", "title": "Lazy sparsification equals eager sparsification", "statement": "In FOBOS_L1, AdaFOBOS_L1 and (one classifier) STG, delaying the l1 truncation of a weight until its feature is next used is not observable: for every sequence of examples the delayed model and the model that truncates every weight at every example (STG: at the end of every period of k examples) have the same counters, give every next example the same label and scores, and are equal once training is finished (constant step size, exact arithmetic, no active learning, one uninterrupted training; beyond these limits, and for STG with several classes, counterexamples).", "quantifier": "Every stream of examples, every pattern of feature occurrence.", "why_tests_cant": "All histories; the bookkeeping of last-use times per feature is per-history.", "anchors": ["src/sol/model/olm/ogd.cc:FOBOS_L1", "src/sol/model/regularizer.cc:LazyOnlineL1Regularizer"]}
{"id": "C32", "title": "Finishing training twice must not change the model", "statement": "Ending training (as saving, testing and asking for sparsity do) leaves a finished model unchanged, so that training on no examples and testing again changes nothing. (The code breaks this for the three lazily truncated l1 models, FOBOS-L1, STG and AdaFOBOS-L1: ending training a second time truncates the same weights again. Dual averaging with feature selection is not covered.)", "quantifier": "Every model state.", "why_tests_cant": "Requires reasoning over any sequence of API calls, not one.", "anchors": ["src/sol/model/olm/ogd.cc:FOBOS_L1::EndTrain", "include/sol/model/online_linear_model.h:EndTrain", "src/sol/model/model.cc:Test"]}
{"id": "C33", "title": "Norm-bounded models stay in their ball", "statement": "The algorithms that project (first-order feature selection, ALMA) have, after every update, weight norm at most their radius, in exact arithmetic.", "quantifier": "Every stream, every dimension.", "why_tests_cant": "All histories of real vectors.", "anchors": ["src/sol/model/olm/fofs.cc:Update", "src/sol/model/olm/alma2.cc:Update"]}
{"id": "C34", "title": "Confidence parameters stay positive and only shrink", "statement": "In the confidence-weighted family (AROW, SOFS, SOP, CW, ECCW) every per-feature confidence parameter starts at its initial value, stays strictly positive and never increases over any session of training and testing, in exact arithmetic; features not in the example keep theirs. CW needs examples with a non-zero feature. ECCW needs small examples (initial confidence times twice the squared norm plus one at most 1): for larger ones the code breaks the property, a confidence can grow and even become negative, because its margin is phi times the variance instead of phi times its root.", "quantifier": "Every stream, every regularisation parameter r > 0, every dimension.", "why_tests_cant": "All histories of real vectors.", "anchors": ["src/sol/model/olm/arow.cc:Update", "src/sol/model/olm/cw.cc:Update", "src/sol/model/olm/eccw.cc:Update", "src/sol/model/olm/sop.cc"]}
{"id": "C35", "title": "Adaptive scaling never drops below its floor", "statement": "In the adaptive subgradient algorithms every per-feature scale is at least delta and never decreases over any session of training and testing; after training on a stream from scratch it equals delta plus the root of the accumulated squared gradients of the updates made, in exact arithmetic, so no division by zero occurs.", "quantifier": "Every stream, every delta > 0, every dimension.", "why_tests_cant": "All histories; a closed form for an unbounded sum.", "anchors": ["src/sol/model/olm/ada_fobos.cc:Update", "src/sol/model/olm/ada_rda.cc:Update"]}
{"id": "C36", "title": "Losses are sound", "statement": "Each loss is non-negative and zero exactly when the documented margin condition holds (the logistic loss: exactly when the margin exceeds 100, otherwise within exp(-100) of ln(1+exp(-score*label))); for two classes the gradient is zero when the loss is zero and is otherwise the derivative or a subgradient of the loss; the loss reported while learning equals the loss reported by evaluation. (Two stronger claims are broken by the code: the max-score losses leave the previous example's gradient in place when the loss is zero, and the logistic loss is not always positive.)", "quantifier": "Every score, every label in {-1, 1}, every margin.", "why_tests_cant": "Real-valued universal laws.", "anchors": ["src/sol/loss/hinge_loss.cc", "src/sol/loss/bool_loss.cc", "src/sol/loss/square_loss.cc", "src/sol/loss/logistic_loss.cc"]}
{"id": "C37", "title": "Multi-class gradients balance and target the strongest rival", "statement": "For multi-class losses the class gradients sum to zero, only the true class has a negative gradient, and the max-score variants choose as rival the best-scored class other than the true one (first on ties).", "quantifier": "Every number of classes >= 2, every score vector, every true class.", "why_tests_cant": "All score vectors and tie patterns.", "anchors": ["src/sol/loss/hinge_loss.cc:MaxScoreHingeLoss", "src/sol/loss/bool_loss.cc:MaxScoreBoolLoss", "src/sol/loss/hinge_loss.cc:UniformHingeLoss"]}
{"id": "C38", "title": "Uniform multi-class hinge never reports a loss", "statement": "With the uniform hinge loss the gradient routine reports zero loss for every score vector, label, margin and margin handler, so a model that predicts with its plain weights never changes them, however badly the margin is violated. (The intended claim, that an example with positive loss is learned from, is broken by the code: the gradient routine declares a second variable named loss inside its block.)", "quantifier": "Every score vector and every label.", "why_tests_cant": "The outcome of training is merely a poor model; no unit test asserts it.", "anchors": ["src/sol/loss/hinge_loss.cc:UniformHingeLoss::gradient"]}
{"id": "C39", "title": "Pre-processing of examples", "statement": "Before learning, binary labels are mapped to 1 (label 1) or -1 (any other), features not selected are set to zero and no other value changes, and with normalisation the example gets norm one unless it has no non-zero feature (in which case the code produces NaN values).", "quantifier": "Every example, every selection set, each norm kind.", "why_tests_cant": "All selection sets and examples.", "anchors": ["src/sol/model/model.cc:PreProcess", "src/sol/model/model.cc:FilterFeatures", "include/sol/model/model.h:CalibrateLabel"]}
{"id": "C40", "title": "Splitting a data set keeps every example", "statement": "Splitting a data set into k folds writes every example to exactly one fold, in order, with fold sizes differing by construction only in the last ones, as long as the number of examples is at most 2^24; above that, single-precision division can drop trailing examples.", "quantifier": "Every number of examples and every number of folds.", "why_tests_cant": "Requires data sets of more than 16 million examples to fail; the positive claim ranges over all smaller sizes.", "anchors": ["src/sol/tools.cc:split"]}
{"id": "C41", "title": "Shuffling permutes", "statement": "Shuffling a data set writes each example of the input exactly once, whatever the random permutation used.", "quantifier": "Every data set, every random outcome.", "why_tests_cant": "Random outcomes cannot be enumerated.", "anchors": ["src/sol/tools.cc:shuffle"]}
{"id": "C42", "title": "Converting between formats preserves the data", "statement": "Converting a data set writes one record per input record in the same order with the same label and features; with binarisation every stored feature value becomes 1 if it exceeds the threshold and -1 otherwise and nothing else changes.", "quantifier": "Every finite input, every target label.", "why_tests_cant": "Unbounded inputs.", "anchors": ["src/sol/tools.cc:convert"]}
{"id": "C43", "title": "Data-set analysis counts exactly", "statement": "The analysis tool reports the exact number of records, features, distinct classes with their frequencies and the feature dimension of the input; the per-class counts add up to the number of records.", "quantifier": "Every finite input with at least one feature.", "why_tests_cant": "Unbounded inputs.", "anchors": ["src/sol/tools.cc:analyze"]}
{"id": "C44", "title": "String helpers", "statement": "Splitting a string returns the non-empty maximal separator-free pieces in order (so joining and splitting round-trips non-empty separator-free pieces), lower-casing is idempotent and length preserving, stripping removes leading blanks but also cuts at the first inner blank.", "quantifier": "Every string and separator.", "why_tests_cant": "All strings.", "anchors": ["include/sol/util/str_util.h:split", "include/sol/util/str_util.h:strip", "include/sol/util/str_util.h:lower"]}
{"id": "C45", "title": "In-memory matrices are passed by a lossless path string", "statement": "The textual path generated for an in-memory dense or sparse matrix parses back to exactly the same addresses and sizes.", "quantifier": "Every pair of addresses below 2^63 and all sizes of the 32-bit range.", "why_tests_cant": "All address and size combinations.", "anchors": ["src/sol/pario/numpy_reader.cc:GeneratePath", "src/sol/pario/numpy_reader.cc:ParsePath", "src/sol/pario/csr_matrix_reader.cc:GeneratePath", "src/sol/pario/csr_matrix_reader.cc:ParsePath"]}
{"id": "C46", "title": "In-memory matrix readers enumerate the rows", "statement": "Reading an in-memory matrix yields one example per row in order with its label, column j becoming feature j+1, zeros of a dense matrix skipped and rows of a sparse matrix sorted; then end-of-file; rewinding starts over.", "quantifier": "Every matrix shape and content.", "why_tests_cant": "Unbounded shapes.", "anchors": ["src/sol/pario/numpy_reader.cc:Next", "src/sol/pario/csr_matrix_reader.cc:Next"]}
{"id": "C47", "title": "Component lookup by name is unambiguous", "statement": "Looking up a registered component by name ignores letter case, returns the component registered under that name, and returns nothing for a name never registered; registering two components under the same name is rejected.", "quantifier": "Every registration history and every name.", "why_tests_cant": "All registration orders (static initialisation order is unspecified) and all names.", "anchors": ["src/sol/util/reflector.cc:Register", "include/sol/util/reflector.h:CreateObject"]}
{"id": "C48", "title": "Saved models reload to the same predictions", "statement": "Saving a model and loading the file restores kind, normalisation, dimension, number of classes, iteration number, settings and every weight and confidence vector up to the printed precision (six significant digits; relative error at most 6e-6 in single precision). Every prediction and every test of the loaded model is that of the printed weights, so it is identical when the weights print exactly, e.g. integers of at most six digits. Recorded as refuted: exact weights in general, NaN and truncation noticed, a FOFS model with default budget loads, all settings kept, unfinished training kept; a file without the parameter line makes Load loop for ever.", "quantifier": "Every registered linear model in a state with a valid shape and parameters its setters accept, every JSON library that reads back what it wrote, every number type with printing and reading functions; single precision for the error bound.", "why_tests_cant": "All models.", "anchors": ["src/sol/model/model.cc:Save", "src/sol/model/model.cc:Load", "src/sol/model/online_linear_model.cc:GetModelParam", "include/sol/math/matrix.h:operator<<"]}
{"id": "C49", "title": "Dual averaging has its closed form", "statement": "Each of RDA, RDA_L1, ERDA_L1 and AdaRDA_L1 behaves, in every session of training and testing and in any arithmetic, exactly like the learner that stores nothing but its past gradients and recomputes all weights as minus step size times the (truncated, for AdaRDA scaled) gradient sum before each example and when training ends: same answers, counters, test results and final models; and the weights it stores have no influence on later training answers. AdaRDA does so until the first test. In exact arithmetic the sums are the sums of the gradients and delta plus the root of the sum of their squares.", "quantifier": "All settings, numbers of classes, losses, sessions and further examples; any number type.", "why_tests_cant": "All histories.", "anchors": ["src/sol/model/olm/rda.cc:RDA", "src/sol/model/olm/rda.cc:RDA_L1", "src/sol/model/olm/ada_rda.cc:AdaRDA"]}
{"id": "C50", "title": "Vector expressions evaluate element-wise", "statement": "Evaluating a lazy vector expression assigns to every element the value of the scalar expression on the corresponding operand elements; assigning an expression over a sparse vector into a dense one changes exactly the elements at the sparse indexes below the dense size; reductions (norms, inner products) equal the mathematical sums over all elements.", "quantifier": "Every size, every expression of the supported operators, every sorted sparse vector.", "why_tests_cant": "All expressions and sizes.", "anchors": ["include/sol/math/matrix_expression.h", "include/sol/math/expression.h", "include/sol/math/operator.h"]}
{"id": "C51", "title": "Few kinds of input can turn weights into NaN", "statement": "With parameters in their range, no sequence of training and testing calls turns finite weights or scores into a non-number, in exact arithmetic, for any registered model and any labels, orders and repetitions of well-formed examples, including examples without features - with these exceptions, each of which really happens: PA (and CW after its bias has been switched off) given an example without a non-zero feature; RDA_L1 on the first example of a stream; ECCW on examples whose norm is large compared to its initial variance (with default parameters three one-feature examples suffice); and normalising an all-zero example.", "quantifier": "Every registered model, parameter values in range, number of classes, session of trainings, tests and parameter changes, every preprocessing function and every well-formed example.", "why_tests_cant": "Degenerate inputs are a thin set that random tests miss, and a non-number may appear only after many updates.", "anchors": ["src/sol/model/olm/pa.cc:PA::Update", "src/sol/model/olm/rda.cc:RDA_L1::TrainPredict", "src/sol/model/olm/eccw.cc:ECCW::Update", "src/sol/model/model.cc:PreProcess"]}
{"id": "C52", "title": "C-API and array predictions agree with the model", "statement": "The scores and labels the C interface returns for a data set are those of the model's prediction on each example, in the order of the data, one per example.", "quantifier": "Every model and every data set.", "why_tests_cant": "Unbounded data sets.", "anchors": ["src/sol/c_api.cc:sol_Predict", "src/sol/model/model.cc:Test"]}
{"id": "C53", "title": "Any number of passes over a text file", "statement": "Rewinding and reading a text data file again delivers the same lines in every pass, for any number of passes. (The code breaks this for a file whose last line is not terminated: each pass doubles the line buffer, and the twentieth pass overflows its int length.)", "quantifier": "Every file, every number of passes, every initial buffer size.", "why_tests_cant": "The failure needs many passes over a file with a particular last byte and depends on the history, not on one call.", "anchors": ["src/sol/pario/file_reader.cc:ReadLine", "src/sol/pario/data_reader.cc:DataFileReader", "include/sol/pario/data_reader.h:Rewind"]}
{"id": "C54", "title": "Training never leaves its arrays", "statement": "Every registered linear model, trained and tested in any order and any number of times and with parameters changed in between, accesses its weight, gradient, confidence, time-stamp and heap arrays only within their bounds and finishes; afterwards all class weight vectors have the model's dimension. (A label that is not a class of the model breaks this: it is used as an index without a check.)", "quantifier": "Every model, every number of classes, every sequence of training and test runs over sorted examples with known labels, every numeric behaviour.", "why_tests_cant": "Bounds depend on the whole history of dimension growth, heap contents and re-initialisation; tests cover a few sequences and an out-of-range read often goes unnoticed.", "anchors": ["src/sol/model/online_linear_model.cc:Iterate", "src/sol/model/olm/arow.cc:SOFS", "src/sol/model/olm/ogd.cc:PET", "src/sol/model/model.cc:Test"]}
{"id": "C55", "title": "Malformed text records are rejected, well-formed ones accepted", "statement": "A libsvm line written with any blanks and any spelling of its numbers is accepted with exactly the features written; an accepted libsvm or csv line consists of a label and cells of the format and nothing else, with as many features (csv: columns) as separators; every line with another character is rejected with Status_Invalid_Format. Reading a file delivers the records before the first bad line and then reports the error.", "quantifier": "Every line, every file (lines up to 2^29 bytes, no NUL).", "why_tests_cant": "All byte strings; tests try a few malformed lines.", "anchors": ["src/sol/pario/svm_reader.cc:SVMReader::Next", "src/sol/pario/csv_reader.cc:CSVReader::Next", "include/sol/pario/numeric_parser.h"]}
{"id": "C56", "title": "A feature list file selects exactly the listed features", "statement": "After SetParameter(\"filter\", file) with a file of comment lines and lines starting with a positive int, every example keeps its label and indexes, keeps the value of a feature whose index is listed and has every other value set to 0, whatever the order, repetitions and trailing text; a line without a number makes the whole file rejected by an exception. (Counterexamples: a file of comments only dereferences the end of an empty vector; a negative index writes outside of the flags.)", "quantifier": "Every list of lines, every example.", "why_tests_cant": "All files and all examples; tests load one list.", "anchors": ["src/sol/model/model.cc:Model::LoadPreSelFeatures", "src/sol/model/model.cc:Model::FilterFeatures"]}
{"id": "C57", "title": "Selective sampling and cost-sensitive margins do what the parameters say", "statement": "With active_smoothness b > 0, Iterate asks for the label exactly for the draws u <= b/(b+m), where m is the distance of the answer from the next best one (absolute score with two classes); an example not asked for counts as read, but neither as iteration nor as update. With the hinge loss and cost_margin v, an example is learnt from exactly if score times label is below v (positive) or 1 (negative), in every model but CW and ECCW, in which the setting has no effect at all.", "quantifier": "Every model kind, state, example and draw (exact arithmetic; the no-effect part for every arithmetic).", "why_tests_cant": "A boundary over a continuum of scores and random draws.", "anchors": ["src/sol/model/online_linear_model.cc:OnlineLinearModel::Iterate", "src/sol/model/online_model.cc:OnlineModel::SetParameter", "src/sol/loss/hinge_loss.cc:HingeLoss::gradient"]}
{"id": "C58", "title": "A feature-selection model without a limit is the model it extends", "statement": "PET, SOFS, AdaFOBOS_OFS and AdaRDA_OFS with lambda (the budget) 0 behave as OGD, AROW, AdaFOBOS and AdaRDA: after any sequence of trainings, tests and parameter changes both have the same weights, counters and thus the same answers, and neither shows undefined behaviour where the other does not.", "quantifier": "Every arithmetic (floats included), every class number, every session on any examples.", "why_tests_cant": "All sessions; the subclasses repeat the update code of their parents.", "anchors": ["src/sol/model/olm/ogd.cc:PET", "src/sol/model/olm/arow.cc:SOFS", "src/sol/model/olm/ada_fobos.cc:AdaFOBOS_OFS", "src/sol/model/olm/ada_rda.cc:AdaRDA_OFS"]}
{"id": "C59", "title": "SetParameter stores exactly what it is told and stays consistent under any program of settings", "statement": "For each of the 24 model classes: which (name, value) pairs SetParameter accepts is given by a table of names, value ranges and loss families and does not depend on the history of the model; an accepted setting changes the members of that parameter to the parsed value and nothing else; a rejected one changes no other member; an unknown name changes nothing. Settings of different members commute, the last accepted setting of a member counts, and accepted settings keep members at their default or in range. If the losses asked for suit the class, every program of settings (accepted or rejected) and trainings runs without undefined behaviour and training starts, unless a cost margin was asked for and the loss has none. Values that BeginTrain derives (ALMA2's margin, CW/ECCW's phi and bias rate) always belong to the present settings.", "quantifier": "Every class, class number, name, value string, state, and program of SetParameter and Train calls; every arithmetic and every behaviour of stof.", "why_tests_cant": "All strings, all orders and histories of settings, the state left behind by rejected settings.", "anchors": ["src/sol/model/model.cc:SetParameter", "src/sol/model/online_model.cc:SetParameter", "src/sol/model/regularizer.cc:SetParameter", "src/sol/model/olm/cw.cc:SetParameter", "src/sol/model/olm/alma2.cc:SetParameter", "src/sol/model/olm/fofs.cc:BeginTrain", "src/sol/c_api.cc:sol_SetModelParameter"]}
{"id": "C60", "title": "Reference-counted storage is safe, invisible and leak-free", "statement": "In every program of constructions, copies, assignments, destructions, element accesses and growth of Vectors and DataPoints: the counter of a block is the number of handles to it, a block is deleted exactly when its last handle goes, nothing remains when all variables are gone, and reads, writes and undefined behaviour are those of the same program without any deletion (so no use after free, no double free). A default-constructed point and another point never influence each other by operations on the two (Clone included); Clone to it gives the same label and features; a copy of a point with storage shows the same features for good, with its own label.", "quantifier": "Every number of variables, every program over them, every element type.", "why_tests_cant": "All programs and aliasing patterns, including self-assignment and assignment between members of shared objects; a dangling pointer often goes unnoticed in a run.", "anchors": ["include/sol/math/matrix.h:Matrix::release", "include/sol/math/matrix.h:Matrix::operator=", "include/sol/math/sparse_vector.h:SVector::release", "include/sol/math/sparse_vector.h:SVector::operator=", "src/sol/pario/data_point.cc:DataPoint::Clone"]}
{"id": "C61", "title": "Passive-aggressive models: cumulative loss and mistakes against any fixed linear functions", "statement": "Training a fresh PA, PA-I or PA-II model without bias steps on any sequence of non-zero examples with valid labels (two classes with hinge loss, more classes with max-hinge loss, exact arithmetic): against any linear functions u of the feature space, one per class, (PA) if u has no loss, the squared losses suffered, each divided by the squared length of its example times the number of weight vectors an update moves (1 or 2), add up to at most |u|^2; (PA-I) the sum of min(C, loss/(q|x|^2))*loss is at most |u|^2 + 2C times the loss of u; (PA-II) the sum of loss^2/(q|x|^2 + 1/(2C)) is at most |u|^2 + 2C times the squared losses of u. The mistakes that the training counts are bounded accordingly. With bias steps (bias_eta > 0) the bound is false, because the step size ignores the bias.", "quantifier": "Every number of classes, every sequence of examples of any length, every competitor, every C > 0, every margin.", "why_tests_cant": "The competitor and the length of the sequence are unbounded, and a step size that is wrong by a factor still learns on every test set; only the worst case tells.", "anchors": ["src/sol/model/olm/pa.cc:PA::Update", "src/sol/model/olm/pa.cc:PAI::Update", "src/sol/model/olm/pa.cc:PAII::Update", "src/sol/loss/hinge_loss.cc:HingeLoss::gradient", "src/sol/loss/hinge_loss.cc:MaxScoreHingeLoss::gradient", "src/sol/model/online_linear_model.cc:OnlineLinearModel::Iterate"]}
{"id": "C62", "title": "Gradient descent: regret and mistakes against any fixed linear function", "statement": "Training a fresh OGD model on two classes with hinge or logistic loss (exact arithmetic, any bias_eta >= 0, any eta0 >= 0 and power_t) on any sequence of examples: against any linear function with bias u, twice the sum of step size times (loss suffered - loss of u) is at most |u|^2 plus the sum of squared step size times (|x|^2 + bias_eta), the logistic loss being exact up to e^-100 per round. With a constant step the regret over T rounds is at most |u|^2/(2 eta) + eta/2 R^2 T, hence |u| R sqrt T for the best step; the mistakes that the training counts, times the margin (hinge) or ln 2 (logistic), are at most the cumulative loss.", "quantifier": "Every sequence of examples, every competitor, every step size schedule of the code, both losses.", "why_tests_cant": "Unbounded sequences and all competitors; a slightly wrong gradient, step schedule or bias step still lowers the loss on test data.", "anchors": ["src/sol/model/olm/ogd.cc:OGD::Update", "src/sol/model/olm/ogd.cc:OGD::set_power_t", "src/sol/loss/hinge_loss.cc:HingeLoss::gradient", "src/sol/loss/logistic_loss.cc:LogisticLoss::gradient", "src/sol/model/online_linear_model.cc:OnlineLinearModel::Iterate"]}
{"id": "C63", "title": "The command line means what it says", "statement": "For every declaration of options without contradictions, parsing a command line gives the free words in order, which options are mentioned, and for every option with a value the last value given or else the default, whatever mixture of --name=value, --name value, -n value and groups of flags -abc is used; it succeeds if and only if the line is of that form, all values are readable (whole numbers in the range of int, one of the listed words, a float) and the needed options are there. analyze, convert, shuffle, split and concat call the library with exactly the values so determined, and only then; else they end with status 0 (help, or no arguments) or 1. sol_train builds exactly the model the line describes: the class of that name in upper or lower case with more than one class, or the loaded one, with the settings of --params made in order if all are accepted; else it ends with status 4 or by an exception if a number does not fit its type. --show lists every model and loss once. Not so: a free word '-' is dropped, --dim has no effect, values of --params are cut at blanks, --show reader names a reader that does not exist.", "quantifier": "Every set of option declarations, every list of arguments of any length and content, every content of --params.", "why_tests_cant": "The ways to write the same command line, repeated options and values that look like options are unbounded; a test covers a few lines.", "anchors": ["external/cmdline/cmdline.h:parser::parse", "external/cmdline/cmdline.h:parser::set_option", "external/cmdline/cmdline.h:parser::parse_check", "tools/sol_train.cc:train", "tools/sol_train.cc:getparser", "tools/sol_train.cc:showinfo", "tools/sol_test.cc:test", "tools/split.cc:main", "tools/concat.cc:main", "tools/converter.cc:main"]}
{"id": "C64", "title": "The parameters a model reports are its settings, and set it up again", "statement": "sol_GetModelParameters calls the callback exactly once for every parameter of the class that has a value in force (all float and int parameters of the class except t0 and sparse_thresh, active_smoothness only from 1 on, cost_margin only if it is in use, a budget B under the name lambda; dim, lazy_update, model, cls_num, clf_num, loss, norm), under the name that SetParameter takes, with the text of the value. After an accepted SetParameter the name is reported with the value its text stands for and every other report is as before. Creating a model of the reported class and number of classes and setting all that was reported, in that order, is accepted throughout and gives a model with the same settings and the same report, for every state that accepted settings and starts of training lead to, provided the floats survive printing and the dimension is below 2^31. Not so: thresholds, feature lists, displayers and a smoothness below 1 are lost; a new FOFS reports a B it rejects; six digits change the default C of ALMA2; dimensions from 2^31 on and values that are not finite are reported but not accepted.", "quantifier": "Every class, every number of classes, every state reached by any program of settings and trainings, every parameter and value.", "why_tests_cant": "Twenty-four classes with their own parameters and overrides, every combination of settings and values; a parameter missing from one report or clashing with another is seen only if that class is saved and set up again with that value.", "anchors": ["src/sol/c_api.cc:GetModelParameters", "src/sol/c_api.cc:sol_GetModelParameters", "src/sol/model/model.cc:Model::GetModelInfo", "src/sol/model/online_model.cc:OnlineModel::GetModelInfo", "src/sol/model/olm/fofs.cc:FOFS::GetModelInfo", "src/sol/model/olm/alma2.cc:ALMA2::GetModelInfo", "src/sol/model/regularizer.cc:Regularizer::GetRegularizerInfo", "src/sol/model/model.cc:Model::SetParameter"]}
{"id": "C65", "title": "The data tools turn files into files that read back as the same data", "statement": "If a file is read in its format as certain examples, then converting it (binarising values if asked) leaves, under the other path and in the other format, a file that is read as the same examples up to what that format keeps (binary: identical; svm: features in index order with printed values; csv: also without zeros); shuffling leaves a file with those examples in some order; splitting into n leaves n differently named files prefix i . type whose contents are consecutive pieces of equal size that make up the data; concatenating leaves a file with the examples of all inputs in the order of the inputs. Splitting into binary files and concatenating them gives the data back. What a tool does depends on its input only through the examples read from it, not on their format or how they are spread over files, so a binary copy can stand in for the original; whatever the status, no file but the named outputs changes, and with a missing input (or an empty csv file as input) convert, shuffle and split change nothing, nor do convert, shuffle and concat if the output cannot be written; all these are errors, and a split of some examples that reports success has written all its files. Not so: a file that is its own output is emptied with status OK; a concatenation that fails for a missing input has already emptied its output; the type name CSV leads to an uninitialised column count; csv of data without features fails and leaves a file with a header.", "quantifier": "All file systems, paths, formats and numbers of files, all data that the output format can represent (any file content on the input side that is read as that data), all numbers of folds below 2^31 and data sets up to 2^24 examples for split, all shuffling outcomes; for the statements on what can change, all runs.", "why_tests_cant": "Tests convert a few sample files between a few pairs of formats with distinct fresh paths; they do not try outputs that are inputs, missing inputs in the middle of a list, empty data, names in another case, fold counts above the number of examples, or all format combinations.", "anchors": ["src/sol/tools.cc:convert", "src/sol/tools.cc:shuffle", "src/sol/tools.cc:split", "tools/concat.cc:main", "src/sol/pario/data_iter.cc:DataIter::AddReader", "src/sol/pario/data_writer.cc:DataWriter::Open", "src/sol/pario/data_read_task.cc:DataReadTask", "src/sol/pario/csv_reader.cc:CSVReader::Open"]}
{"id": "C66", "title": "Model files go through the JSON library unharmed", "statement": "The JSON reader accepts every JSON text (RFC 8259) nested at most 1000 deep and returns the value it denotes: integers from -2^63 to 2^64-1 exactly, strings with all escapes, numbers with the double their text stands for, objects with the last member of each name, whatever bytes follow the text; it comes to an end on every sequence of bytes. The styled writer writes for every value a text that is JSON and is read back as that value (doubles as what their six digits denote, NaN as null). Hence every model that can be saved, saved through this writer and loaded through this reader (which Load feeds without the line ends, with the marker line and with stray bytes behind the document), is restored as C48 says, without any assumption about JSON; saving the restored model writes the same file byte by byte if its numbers are zero or at least 2^-125 in absolute value. Texts that are no JSON may be accepted, deeper texts raise an exception that Load does not catch, and the result for unterminated texts depends on memory behind the document.", "quantifier": "Every JSON text, every byte sequence, every value (any doubles, any printing and reading of them that agree), every savable model of all classes, every content of the memory behind the document.", "why_tests_cant": "All texts of the grammar with all placements of white space and all escapes, all trees of values, all models; the memory behind the document differs from run to run.", "anchors": ["external/json/jsoncpp.cpp:Reader::parse", "external/json/jsoncpp.cpp:Reader::readValue", "external/json/jsoncpp.cpp:Reader::readObject", "external/json/jsoncpp.cpp:Reader::readArray", "external/json/jsoncpp.cpp:Reader::decodeNumber", "external/json/jsoncpp.cpp:Reader::decodeString", "external/json/jsoncpp.cpp:StyledStreamWriter::writeValue", "external/json/jsoncpp.cpp:valueToQuotedStringN", "src/sol/model/model.cc:Model::Save", "src/sol/model/model.cc:Model::Load"]}
{"id": "C67", "title": "A trained model survives storing, and a stored model can be trained on", "statement": "A new model of any class whose settings SetParameter accepts and print exactly can be saved after every session of training, testing and resetting (up to 2^31-1 features, classes and examples): its settings are those it was given, its vectors have the shape the file format needs, its counters are in range. After training and a test, saving and loading gives a model whose predictions for all examples, and whose labels, scores and error counts for all test data, are those of the model in memory, if its numbers have six digits; in single precision every finite weight comes back within six parts in a million. Except for the two classes with lazy regularisation, every loaded model can be used in every further session without leaving defined behaviour, and the result can be saved again, so that this can go on for any number of generations. A lazily regularised model that is loaded and trained on narrower data meets vectors of different sizes when training ends.", "quantifier": "All model classes, all settings, all numbers of classes, all sessions (any order and number of training batches, tests and resets on any well-formed data), all test data, any arithmetic; single precision for the error bound.", "why_tests_cant": "Sessions are unbounded, and the state of a model after training (dimension, counters, confidence vectors, feature heaps) depends on all examples; tests can only store a few trained models of each class.", "anchors": ["src/sol/model/model.cc:Model::Test", "src/sol/model/model.cc:Model::Save", "src/sol/model/model.cc:Model::Load", "src/sol/model/online_model.cc:OnlineModel::Train", "src/sol/model/online_linear_model.cc:OnlineLinearModel::Iterate", "src/sol/model/olm/ogd.cc:FOBOS_L1::EndTrain", "src/sol/model/olm/alma2.cc:ALMA2::Update"]}
{"id": "C68", "title": "The C interface is safe to use, and lsol_c does what sol_train and sol_test do", "statement": "lsol_c trains or tests exactly as its command line says. Given the same order, it does to the files what sol_train and sol_test do and fails when they fail, with the same status; but it prints the error rate under the name of accuracy, and returns the status of saving, which sol_train ignores. Training through the C interface never leaves defined behaviour and everything created is destroyed at the end, except the model if --params contains a part that is no setting; testing leaves defined behaviour exactly if --filter is given and the model cannot be loaded. For every client of the C interface: a program leaves defined behaviour if and only if it passes null, a released object or one of the wrong kind; if it does not copy handles, its variables are always null or refer to existing objects, no two to the same one, operations touch only what they mention, releasing twice is harmless, and if it creates only into null variables no object is lost. Not so with copies of handles.", "quantifier": "All command lines, all arguments, all states of heap and files, all client programs, all behaviours of the classes behind the interface (statuses, exceptions, results).", "why_tests_cant": "The claims range over all interleavings of calls by clients and over all failures of the library (missing files, rejected settings, exceptions, unwritable outputs); tests run a few scripts on working files.", "anchors": ["src/sol/c_api.cc:sol_CreateDataIter", "src/sol/c_api.cc:sol_ReleaseDataIter", "src/sol/c_api.cc:sol_LoadData", "src/sol/c_api.cc:sol_CreateModel", "src/sol/c_api.cc:sol_RestoreModel", "src/sol/c_api.cc:sol_SaveModel", "src/sol/c_api.cc:sol_ReleaseModel", "src/sol/c_api.cc:sol_SetModelParameter", "src/sol/c_api.cc:sol_Train", "src/sol/c_api.cc:sol_Test", "tools/lsol_c.cc:train", "tools/lsol_c.cc:test", "tools/lsol_c.cc:getparser", "tools/sol_train.cc:train", "tools/sol_test.cc:test"]}
{"id": "C69", "title": "Cross validation tries every combination once, keeps the validation data apart and selects the best", "statement": "The search space of the Python cross validation has every combination of the given parameter values exactly once. A task trains on every slice but one, in order, in every pass, and gets its validation accuracy from that one slice only; for slices that come from one split the training and the validation slice together are the data, each example once. With any number of processes and in any order of their steps, if no task raises an exception the parent always gets through, within a bounded number of steps, and every result is at the place of its setting; get_best_param then gives a setting of which no other combination exceeds the mean validation accuracy (exact arithmetic). The slices found in the directory are those of one split after any successful calls that name a type, and the numbers read from the report of the data analysis are those written; a number is read from a text only if it is there, once, behind its name and a colon. Not so: an exception in one task, or no process at all, leaves the parent waiting for ever; a second call of train_val adds the old mean; an empty validation slice makes the first setting the best; slices get mixed without a type or after a failed split.", "quantifier": "All parameter dictionaries (not empty), all models, data and accuracies, all numbers of folds, passes, settings and processes, all interleavings, all sequences of calls, all reports.", "why_tests_cant": "The processes race for the tasks in ever different orders and the claims range over all of them; whether a mixture of slices or a wrong mean goes into the choice cannot be seen from its result.", "anchors": ["python/cv.py:SearchSpace.__init__", "python/cv.py:train_val_executor", "python/cv.py:CV.train_val", "python/cv.py:CV.__train_val_one_fold", "python/cv.py:CV.get_best_param", "python/dataset.py:DataSet.__analyze_dataset", "python/dataset.py:DataSet.split_path", "python/dataset.py:DataSet.split_file", "src/sol/tools.cc:analyze"]}
{"id": "C70", "title": "The Python class is safe, leaves nothing behind and does what the command line tools do", "statement": "A Python program that uses an object of the class SOL carefully (labels for matrices, handlers and the name of the algorithm kept, get_params with a model only, neither it nor name behind load) never reads freed memory or goes through a null pointer, whatever the classes do, unless Train refuses its settings; exceptions may be caught and the object used on. When the object dies, or its constructor raises, no model and no iterator is left, if load was not called on an object with a model. fit, score and predict read what their arguments name and nothing else, and give the results of the classes; without a model, or if a source cannot be opened, an exception is raised and the object stays as it was. Creating an object with settings, fit on a file and save give the accuracy and files of sol_train for the same order, and raise exactly where it fails; load, the filter setting and score give the accuracy of sol_test. Not so: name after load, get_params without a model, predict without labels and a dropped handler are undefined; a refused Train is reported as accuracy 1 and its data are read by the next call; load leaks; save hides its failure; set_params changes the model although it raises.", "quantifier": "All behaviours of the classes, all sequences of calls with all arguments, all orders in which objects die, all algorithms, settings, files and formats.", "why_tests_cant": "Reads of freed memory mostly give the old contents, so that tests pass; which sequences of calls reach them, and that no others do, can only be told for all programs at once.", "anchors": ["python/pysol.pyx:SOL.__cinit__", "python/pysol.pyx:SOL.__dealloc__", "python/pysol.pyx:SOL.set_params", "python/pysol.pyx:SOL.get_params", "python/pysol.pyx:SOL.inspect_learning", "python/pysol.pyx:SOL.__load_data", "python/pysol.pyx:SOL.fit", "python/pysol.pyx:SOL.score", "python/pysol.pyx:SOL.predict", "python/pysol.pyx:SOL.save", "python/pysol.pyx:SOL.load", "src/sol/model/online_model.cc:OnlineModel::Train", "src/sol/c_api.cc:sol_InspectOnlineIteration"]}
{"id": "C71", "title": "The Python scripts train what sol_train trains, with the parameters that were validated, and never finish on a loaded model", "statement": "train in sol_train.py gives the accuracy and the model file sol_train gives for the parameters chosen, and raises an exception, writing no model, where sol_train fails. The parameters chosen are the caller's, overridden by the best ones of cross validation or of its result file; cross validation gets the caller's without B and lambda, and afterwards the caller's dictionary is the one chosen. If no parameter is both given and searched, and neither B nor lambda is given, the model is made with exactly the settings that were validated. --params sets items with one '=' as given. finetune and sol_test.py never give a result: if the model file can be loaded their behaviour is undefined, else they raise. Not so: settings are the validated ones if a parameter is given and searched or B is given; a call without parameters is independent of earlier calls; the caller's dictionary survives an exception; values with '=' are kept.", "quantifier": "All behaviours of the classes and of cross validation, all dictionaries, data sets, outputs, files and item lists.", "why_tests_cant": "The scripts run and print plausible accuracies with settings nobody validated or memory that happens to be intact; that this is so for every model file, and when the settings are right, are statements about all inputs.", "anchors": ["python/sol_train.py:train", "python/sol_train.py:finetune", "python/sol_train.py:main", "python/sol_test.py:main", "python/cv.py:CV.__train_val_one_fold", "python/pysol.pyx:SOL.load"]}
