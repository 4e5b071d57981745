{"id": "C01", "title": "Shuffling a dataset only permutes it", "statement": "Every shuffle_* function that shuffles a single array or matrix leaves the array holding exactly the same elements (with multiplicity), touches no element outside [0,n), and every permutation of the input is produced by some sequence of rand() values.", "quantifier": "all array lengths n, all contents, all sequences of rand() results in [0,RAND_MAX]", "why_tests_cant": "A test fixes n and a handful of random seeds; losing or duplicating one element may need one particular rand() sequence out of n!.", "anchors": ["src/utils.c:shuffle_char_matrix", "src/utils.c:shuffle_float_matrix", "src/utils.c:shuffle_int_matrix", "src/utils.c:shuffle_int_array", "src/utils.c:shuffle_int_array_until_length"]}
{"id": "C02", "title": "Paired shuffles keep samples and labels aligned", "statement": "A function that shuffles two or more arrays together applies one and the same permutation to all of them, so each sample keeps its own label.", "quantifier": "all lengths, all contents, all rand() sequences, every paired shuffle function (matrix/matrix and matrix/int-label variants)", "why_tests_cant": "Misalignment depends on the rand() sequence; a seed can pass by luck and the corrupted dataset looks plausible.", "anchors": ["src/utils.c:shuffle_float_matrices", "src/utils.c:shuffle_char_matrices", "src/utils.c:shuffle_float_matrices_float_int_vectors", "src/utils.c:shuffle_char_matrices_float_int_vectors", "src/utils.c:shuffle_float_matrices_float_int_int_vectors"]}
{"id": "C03", "title": "Partial shuffle selects without replacement", "statement": "shuffle_int_array_until_length(m,n,l) leaves a permutation of m, and its first l entries are l distinct positions of the original array: a mini-batch sampled this way never contains the same index twice, and any ordered selection can be obtained.", "quantifier": "all n, all l, all rand() sequences, all contents", "why_tests_cant": "Duplicates inside a batch would only show up for particular rand() values.", "anchors": ["src/utils.c:shuffle_int_array_until_length"]}
{"id": "C04", "title": "quick_sort sorts and stays in bounds", "statement": "quick_sort / quick_sort_int reorder the segment [first,last] into ascending order, the result is a permutation of the input, nothing outside the segment changes, no access is out of bounds and the call terminates.", "quantifier": "all arrays, all segments, including duplicates, sorted and reversed data", "why_tests_cant": "Sorting bugs at partition boundaries need specific orderings of arbitrary size; termination cannot be observed by a finite run.", "anchors": ["src/utils.c:quick_sort", "src/utils.c:quick_sort_int"]}
{"id": "C05", "title": "sort() returns indices in score order", "statement": "sort(values, indices, n) permutes the index array so that values[indices[0]] <= values[indices[1]] <= ..., losing no index.", "quantifier": "all value arrays and all index arrays", "why_tests_cant": "An order-dependent defect shows only on inputs of a particular shape (fractions, non-identity index order).", "anchors": ["src/utils.c:merge_sort", "src/utils.c:merge", "src/utils.c:sort"]}
{"id": "C06", "title": "argmax returns the first maximum", "statement": "argmax(v,n) returns the smallest index holding the maximum of v[0..n), and -1 exactly when the vector is empty.", "quantifier": "all vectors of all lengths of totally ordered (non NaN) values", "why_tests_cant": "Tie-breaking and position of the maximum range over all vectors.", "anchors": ["src/utils.c:argmax"]}
{"id": "C07", "title": "Heap repair restores the max-heap and the index tables", "statement": "Sifting an element up or down, or removing position i, turns an almost-heap into a heap in which every parent priority is at least its children's, keeps the heap array a permutation of the same buffer slots, keeps the inverse table an exact inverse, and never indexes outside the heap.", "quantifier": "all heap sizes, all priorities, all positions", "why_tests_cant": "Violations appear only for particular shapes (odd last child, removal of an element whose replacement must move up).", "anchors": ["src/utils.c:max_heapify", "src/utils.c:max_heapify_up", "src/utils.c:remove_ith_element_from_max_heap"]}
{"id": "C08", "title": "Ranked replay buffer is consistent after every history", "statement": "After any sequence of stored experiences and priority updates the ranked buffer's priority queue is a max-heap over exactly the occupied slots, its forward and inverse tables are mutually inverse, and a newly stored experience ranks first.", "quantifier": "all capacities, all sequences of add / priority-update operations, including wrap-around overwrites", "why_tests_cant": "The invariant spans unbounded histories and the wrap-around point; a unit test sees one short history.", "anchors": ["src/rainbow.c:add_experience", "src/rainbow.c:add_buffer_state", "src/rainbow.c:update_buffer_state"]}
{"id": "C09", "title": "Priority update hits the sampled transition", "statement": "After a training step, every sampled transition carries the TD error computed for it and every other transition keeps its old priority.", "quantifier": "all heaps, all batches of distinct sampled transitions, all new errors", "why_tests_cant": "A wrong slot is silently overwritten only when an earlier update in the same batch reorders the heap.", "anchors": ["src/rainbow.c:train_rainbow", "src/rainbow.c:update_buffer_state"]}
{"id": "C10", "title": "Cumulative tree stores exact subtree sums", "statement": "After any history of insertions and value changes each node of the cumulative tree equals the sum of the values stored strictly below it, and an update changes only ancestors of the updated node.", "quantifier": "all tree sizes, all sequences of additive updates", "why_tests_cant": "Sum corruption accumulates over unbounded histories.", "anchors": ["src/utils.c:update_recursive_cumulative_heap_up", "src/utils.c:value_is_child", "src/utils.c:subtracted_value"]}
{"id": "C11", "title": "Weighted sampling is proportional and without replacement", "statement": "With nothing taken, weighted_random_sample partitions [0,total] into one interval per stored element whose length is that element's weight; with taken elements it never returns a taken one.", "quantifier": "all sizes, weights, draws and taken sets", "why_tests_cant": "A probability statement over a continuum of draws and all weight vectors.", "anchors": ["src/utils.c:weighted_random_sample", "src/utils.c:weighted_random_sample_rewards"]}
{"id": "C12", "title": "Reward-class bookkeeping never drifts", "statement": "In reward-sampling mode the positive/negative/neutral classes always partition the stored transitions and their lengths and sums match their contents.", "quantifier": "all histories of experiences and updates", "why_tests_cant": "Drift needs long histories and class changes in particular orders.", "anchors": ["src/rainbow.c:add_buffer_state_reward_sampling", "src/rainbow.c:update_buffer_state_reward_sampling"]}
{"id": "C13", "title": "n-step returns never mix episodes", "statement": "The n-step return computed for a stored transition is sum lambda^j r_j over consecutive transitions written after it, stopping at the first terminal one, and never includes a transition on the other side of the ring buffer's write position.", "quantifier": "all capacities, write positions, start positions, terminal patterns, n", "why_tests_cant": "Wrap-around, terminal and write-head conditions interact; the combinations are unbounded.", "anchors": ["src/rainbow.c:train_rainbow"]}
{"id": "C14", "title": "Exploration probability stays in its range", "statement": "After any number of training steps the exploration probability lies in [min_epsilon,max_epsilon], never increases while decay is non-negative, and reaches min_epsilon.", "quantifier": "all parameters and all numbers of steps", "why_tests_cant": "Holds over unbounded histories.", "anchors": ["src/rainbow.c:update_exploration_probability"]}
{"id": "C15", "title": "check_int_array is a set of seen arrays", "statement": "Called with arrays of one fixed length, check_int_array returns 1 exactly when the same array was given before (since creation) and 0 otherwise.", "quantifier": "all sequences of arrays of one length", "why_tests_cant": "The answer depends on the full history of calls.", "anchors": ["src/dictionary.c:check_int_array"]}
{"id": "C16", "title": "Confusion-matrix counts and metrics", "statement": "confusion_matrix counts each (sample,class) pair exactly once in TP/TN/FP/FN, per-class counts add up to the number of samples, and the derived accuracy/precision/sensitivity/specificity are percentages in [0,100] equal to 100 times their textbook quotient.", "quantifier": "all prediction/label arrays, sizes and thresholds", "why_tests_cant": "Counting identities range over all datasets.", "anchors": ["src/utils.c:confusion_matrix", "src/utils.c:accuracy_array", "src/utils.c:precision_array", "src/utils.c:sensitivity_array", "src/utils.c:specificity_array"]}
{"id": "C17", "title": "Learning-rate schedules respect their contract", "statement": "update_lr applies the schedule selected by its flag at the configured epochs and never drops the learning rate below the configured minimum.", "quantifier": "all epochs, thresholds, flags, rates", "why_tests_cant": "Ranges over every epoch/threshold pair and unbounded training length.", "anchors": ["src/learning_rate_decay.c:update_lr", "src/learning_rate_decay.c:constant_decay", "src/learning_rate_decay.c:time_based_decay", "src/learning_rate_decay.c:step_decay", "src/learning_rate_decay.c:cosine_annealing"]}
{"id": "C18", "title": "itoa_n prints the decimal representation", "statement": "itoa_n(i,s) writes the decimal representation of i (with leading '-' if negative), NUL terminated, and parsing it back gives i; the behaviour is undefined for the most negative int.", "quantifier": "all ints", "why_tests_cant": "2^32 inputs and a boundary with undefined behaviour.", "anchors": ["src/utils.c:itoa_n"]}
{"id": "C19", "title": "Byte-order conversion is an involution", "statement": "Reversing the byte order of every element of an array twice restores the array, converts each element independently, and changes no byte outside it.", "quantifier": "all arrays, element sizes, lengths", "why_tests_cant": "Arbitrary sizes and contents; runs only on big-endian hosts, which tests do not have.", "anchors": ["src/utils.c:swap_array_bytes_order", "src/utils.c:reverse_ptr", "src/utils.c:convert_data"]}
{"id": "C20", "title": "Clipping a vector", "statement": "clip_vector / copy_clipped_vector put every entry in [min,max], leave in-range entries unchanged, are idempotent, and exit when min>max.", "quantifier": "all vectors and bounds", "why_tests_cant": "All reals, all lengths.", "anchors": ["src/math_functions.c:clip_vector", "src/math_functions.c:copy_clipped_vector"]}
{"id": "C21", "title": "Softmax is a probability distribution", "statement": "softmax outputs are strictly positive, sum to 1, keep the order of the inputs and are invariant under adding a constant (exact arithmetic); its derivative function yields the exact Jacobian product.", "quantifier": "all vectors of all lengths >= 1", "why_tests_cant": "A real-analytic identity in n variables.", "anchors": ["src/math_functions.c:softmax", "src/math_functions.c:derivative_softmax", "src/math_functions.c:derivative_softmax_array"]}
{"id": "C22", "title": "Activation derivatives are the derivatives", "statement": "derivative_sigmoid, derivative_tanhh, derivative_relu, derivative_leaky_relu, derivative_elu return the derivative of the corresponding activation at every point where it is differentiable.", "quantifier": "all real inputs (kinks excluded)", "why_tests_cant": "An identity over the continuum; finite differences only approximate it at samples.", "anchors": ["src/math_functions.c:sigmoid", "src/math_functions.c:derivative_sigmoid", "src/math_functions.c:tanhh", "src/math_functions.c:derivative_tanhh", "src/math_functions.c:relu", "src/math_functions.c:derivative_relu", "src/math_functions.c:leaky_relu", "src/math_functions.c:elu"]}
{"id": "C23", "title": "Loss derivatives are the derivatives", "statement": "Each derivative_* of a loss (mse, cross entropy, cross entropy reduced form, huber, modified huber, focal, KL, entropy, contrastive) is the derivative of the loss with respect to the prediction.", "quantifier": "all predictions and targets in the loss' domain", "why_tests_cant": "Identity over the continuum.", "anchors": ["src/math_functions.c:mse", "src/math_functions.c:derivative_mse", "src/math_functions.c:huber_loss", "src/math_functions.c:derivative_huber_loss", "src/math_functions.c:focal_loss", "src/math_functions.c:kl_divergence"]}
{"id": "C24", "title": "Fully-connected forward and backward pass", "statement": "The forward pass computes W.x+b; the backward pass adds to the weight, bias and input errors exactly the partial derivatives of <output error, output>; with dropout/frozen-bias arguments the same holds for the arguments used, and no access leaves the arrays.", "quantifier": "all layer sizes, weights, inputs, output errors", "why_tests_cant": "Gradient identities hold for all sizes and all reals; numerical gradient checks sample a few.", "anchors": ["src/fully_connected.c:fully_connected_feed_forward", "src/fully_connected.c:fully_connected_back_prop"]}
{"id": "C25", "title": "Edge-popup uses exactly the selected edges", "statement": "In edge-popup mode the output depends only on the weights whose indices are in the selected top part, equals the dense forward with the other weights zeroed, and score gradients are the exact straight-through gradient.", "quantifier": "all sizes, index permutations, cut points", "why_tests_cant": "Index arithmetic over all selections.", "anchors": ["src/fully_connected.c:fully_connected_feed_forward_edge_popup", "src/fully_connected.c:fully_connected_back_prop_edge_popup"]}
{"id": "C26", "title": "Convolution forward and backward pass", "statement": "convolutional_feed_forward computes the strided multi-channel cross-correlation plus bias on the un-padded border of the output and never reads or writes outside its arrays; convolutional_back_prop adds exactly the partial derivatives with respect to kernel, bias and input.", "quantifier": "all channels, sizes, kernels, strides, paddings satisfying the size relation", "why_tests_cant": "Index arithmetic with strides and padding over all shapes.", "anchors": ["src/convolutional.c:convolutional_feed_forward", "src/convolutional.c:convolutional_back_prop"]}
{"id": "C27", "title": "Transposed convolution is the adjoint of convolution", "statement": "transposed_convolutional_feed_forward computes the adjoint linear map of the corresponding convolution plus bias, and its backward pass adds the exact gradients.", "quantifier": "all shapes, strides, contents", "why_tests_cant": "Linear-algebra identity over all shapes.", "anchors": ["src/convolutional.c:transposed_convolutional_feed_forward", "src/convolutional.c:transposed_convolutional_back_prop"]}
{"id": "C28", "title": "Pooling forward and backward pass", "statement": "Max pooling outputs the maximum of each window and back-propagates each output error to a maximal position; average pooling outputs the mean and spreads the error evenly; gradients of overlapping windows add up.", "quantifier": "all shapes, strides, contents", "why_tests_cant": "Ties, negative values and overlapping windows range over all inputs.", "anchors": ["src/convolutional.c:max_pooling_feed_forward", "src/convolutional.c:max_pooling_back_prop", "src/convolutional.c:average_pooling_feed_forward", "src/convolutional.c:average_pooling_back_prop"]}
{"id": "C29", "title": "LSTM cell equations and bounded state", "statement": "lstm_ff computes the LSTM equations; |hidden| < 1 always and |cell| grows by less than 1 per step, for every input sequence.", "quantifier": "all weights, inputs, sequence lengths", "why_tests_cant": "Unbounded sequences.", "anchors": ["src/recurrent.c:lstm_ff"]}
{"id": "C30", "title": "LSTM back-propagation is the exact gradient", "statement": "lstm_bp adds to the parameter errors exactly the derivative of <dy, hidden state> with respect to each parameter (single time step), and the cross-step/cross-layer variants implement the chain rule.", "quantifier": "all sizes, parameters, inputs, errors", "why_tests_cant": "Gradient identity over the continuum.", "anchors": ["src/recurrent.c:lstm_bp"]}
{"id": "C31", "title": "Attention weights and causal masking", "statement": "Each row of attention weights is a probability distribution; with masking, the output at position i does not depend on keys or values at positions > i.", "quantifier": "all dimensions, queries, keys, values", "why_tests_cant": "Non-interference over all inputs.", "anchors": ["src/attention.c:self_attention_ff", "src/attention.c:multi_head_attention_ff"]}
{"id": "C32", "title": "Normalization output statistics", "statement": "Batch normalization outputs gamma*z+beta where z has zero mean over the mini-batch and variance var/(var+eps) <= 1; scaled-l2 normalization outputs a vector of norm |g|; the statistics kept for inference use every mini-batch of the dataset; layer and group normalization normalize every entry of their tensor; every backward pass adds the exact gradient of the forward pass.", "quantifier": "all batches, sizes, contents", "why_tests_cant": "Real-algebra identity over all batches.", "anchors": ["src/normalization.c:batch_normalization_feed_forward", "src/normalization.c:feed_forward_scaled_l2_norm", "src/normalization.c:batch_normalization_final_mean_variance", "src/normalization.c:channel_normalization_feed_forward", "src/normalization.c:group_normalization_feed_forward", "src/normalization.c:local_response_normalization_back_prop_fcl"]}
{"id": "C33", "title": "Optimizer step laws", "statement": "Nesterov's per-parameter step follows the Nesterov recurrence on every gradient history; Adam's first moment is a convex average of past gradients, its second moment stays non-negative, a zero-gradient history leaves the parameter unchanged, and AdaMod's step is never larger than Adam's.", "quantifier": "all gradient histories of every length, all hyper-parameters in range", "why_tests_cant": "Unbounded histories.", "anchors": ["src/gd.c:nesterov_momentum", "src/gd.c:adam_algorithm", "src/gd.c:radam_algorithm", "src/gd.c:adam_diff_grad_algorithm", "src/gd.c:adamod"]}
{"id": "C34", "title": "Gradient clipping bounds the norm and keeps direction", "statement": "After clipping_gradient(m,threshold) the gradient norm is at most threshold, every gradient component was scaled by the same non-negative factor, and gradients with norm below the threshold are untouched.", "quantifier": "all models (any number of layers), all gradients, all thresholds > 0", "why_tests_cant": "Holds for every gradient vector in unbounded dimension.", "anchors": ["src/clipping_gradient.c:clipping_gradient", "src/clipping_gradient.c:clip_fcls", "src/clipping_gradient.c:clipping_gradient_rmodel", "src/clipping_gradient.c:general_clipping_gradient", "src/clipping_gradient.c:adaptive_gradient_clipping_fcl"]}
{"id": "C35", "title": "Summing per-instance gradients loses nothing", "statement": "sum_models_partial_derivatives adds each instance's gradient of every trainable parameter exactly once into the accumulator.", "quantifier": "all batch sizes, all gradients, all layer kinds", "why_tests_cant": "A missing or doubled field only matters for particular layer kinds and is numerically plausible.", "anchors": ["src/math_functions.c:sum_models_partial_derivatives", "src/math_functions.c:sum_fully_connected_layers_partial_derivatives", "src/math_functions.c:sum_convolutional_layers_partial_derivatives"]}
{"id": "C36", "title": "Parallel gradient reduction equals the sequential sum", "statement": "The multithreaded tree reduction yields, for every thread schedule, the same accumulated gradient as the sequential sum of all instances, using each instance exactly once and never touching one instance from two concurrent threads.", "quantifier": "all batch sizes, all interleavings", "why_tests_cant": "Schedules and sizes are unbounded.", "anchors": ["src/multi_core_model.c:sum_models_partial_derivatives_multithread"]}
{"id": "C37", "title": "Mini-batch work is dispatched exactly once", "statement": "The *_multicore functions process each instance of the mini-batch exactly once, for every batch size and thread count.", "quantifier": "all mini-batch sizes and thread counts >= 1", "why_tests_cant": "The leftover chunk depends on size modulo threads.", "anchors": ["src/multi_core_model.c:model_tensor_input_ff_multicore", "src/multi_core_model.c:model_tensor_input_ff_multicore_only_for_ff_loss_reset_opt"]}
{"id": "C38", "title": "Dueling aggregation", "statement": "The dueling network combines streams as V + A - mean(A), so the mean over actions of the combined logits is V, and produces one probability distribution per action.", "quantifier": "all action and atom counts, all stream outputs", "why_tests_cant": "Identity over all reals and sizes.", "anchors": ["src/dueling_categorical_dqn.c:compute_probability_distribution", "src/dueling_categorical_dqn.c:bp_dueling_categorical_network"]}
{"id": "C39", "title": "Categorical projection conserves probability", "statement": "The distributional Bellman projection writes only to atoms in [0,n_atoms), conserves total probability, keeps all masses non-negative and conserves the mean of the clipped target.", "quantifier": "all supports with >= 2 atoms, rewards, discounts, distributions", "why_tests_cant": "Boundary atoms (exactly integral or clipped b) are measure-zero in random tests.", "anchors": ["src/dueling_categorical_dqn.c:get_loss_for_dueling_categorical_dqn"]}
{"id": "C40", "title": "OU exploration actions stay in range", "statement": "The Ornstein-Uhlenbeck action produced for the environment is always in [min,max] for every noise history when min <= max.", "quantifier": "all noise sequences, parameters", "why_tests_cant": "Unbounded histories.", "anchors": ["src/noise.c:get_action"]}
{"id": "C41", "title": "Saving and loading a layer round-trips", "statement": "Loading a file written by the save function of the same object yields an object with the same parameters.", "quantifier": "all layer shapes and parameter values, including several layers in one file", "why_tests_cant": "Format mistakes may only show for particular flag combinations or byte orders.", "anchors": ["src/batch_norm_layers.c:save_bn", "src/batch_norm_layers.c:load_bn", "src/vector.c:save_vector", "src/vector.c:load_vector", "src/fully_connected_layers.c:save_fcl", "src/fully_connected_layers.c:load_fcl", "src/convolutional_layers.c:save_cl", "src/convolutional_layers.c:load_cl", "src/residual_layers.c:save_rl", "src/residual_layers.c:load_rl", "src/recurrent_layers.c:save_lstm", "src/recurrent_layers.c:load_lstm", "src/scaled_l2_norm_layers.c:save_scaled_l2_norm", "src/model.c:save_model", "src/model.c:load_model", "src/model.c:save_model_given_directory", "src/rmodel.c:save_rmodel", "src/transformer_encoder.c:save_transformer_encoder", "src/transformer_decoder.c:save_transformer_decoder", "src/transformer.c:save_transf", "src/transformer.c:load_transf", "src/dueling_categorical_dqn.c:save_dueling_categorical_dqn", "src/vae_model.c:save_vae_model", "src/efficientzeromodel.c:save_efficientzero_model"]}
{"id": "C42", "title": "Target-network soft update", "statement": "slow_paste moves every parameter of the target to tau*source+(1-tau)*target, so repeated updates converge monotonically to a fixed source and never leave the segment between them.", "quantifier": "all parameters, tau in [0,1], all numbers of updates", "why_tests_cant": "Unbounded histories over the continuum.", "anchors": ["src/batch_norm_layers.c:slow_paste_bn", "src/fully_connected_layers.c:slow_paste_fcl"]}
{"id": "C43", "title": "Monte-Carlo tree search bookkeeping", "statement": "After any sequence of visits of a tree search: the nodes form a tree with as many edges per node as actions; a node counts one visit for its creation plus those of its children; a visit adds one to exactly the nodes on its path; each action at the root counts the visits that chose it; every value lies between the recorded bounds; every evaluated value is backed up along the path; any action can be chosen; and the policy read from the tree is a probability distribution proportional to the (tempered) visit counts, whose reading does not change the search.", "quantifier": "all policies, configurations, histories of visits with arbitrary network outputs and random draws, and temperatures", "why_tests_cant": "Unbounded histories.", "anchors": ["src/mcts.c:visit_node", "src/mcts.c:get_mcts_probability", "src/mcts.c:get_mcts_v", "src/mcts.c:init_mcts"]}
{"id": "C44", "title": "NEAT genomes stay well formed under mutation and crossover", "statement": "Starting from the initial tables, any sequence of creating, copying, freeing, splitting, connecting, disabling, enabling, re-weighting and crossing genomes runs without undefined behaviour and leaves every genome well formed: distinct node and connection numbers, every connection joins two nodes of the genome, never entering an input or leaving an output, and is listed exactly once at each end. Within the whole population two connections have the same innovation number exactly when they join the same nodes, and splitting the same connection in two genomes, however far apart in time, gives the same numbers. Each call changes exactly what it says: a split replaces one enabled connection by two in series, adding a connection enables or creates exactly one, removing and activating flip exactly one, a weight mutation touches every weight once, a copy has the same genes, a child has the genes of both parents with the shared ones taken from a parent chosen by a coin, and freeing a genome frees each connection once. (Refuted: activate_bias reads memory that is never initialised; genomes may get cycles.)", "quantifier": "all numbers of inputs and outputs >= 1, all sequences of calls, all random choices, all weights", "why_tests_cant": "The innovation numbers depend on the whole history of all genomes; histories and random choices are unbounded.", "anchors": ["src/mutations.c:split_random_connection", "src/mutations.c:add_random_connection", "src/mutations.c:remove_random_connection", "src/mutations.c:activate_random_connection", "src/mutations.c:activate_connections", "src/mutations.c:connections_mutation", "src/mutations.c:crossover", "src/mutations.c:activate_bias", "src/neat_utils.c:copy_genome", "src/neat_utils.c:get_connections", "src/neat_utils.c:free_genome"]}
{"id": "C45", "title": "Matrix multiplication and elementwise vector arithmetic", "statement": "mat_mul accumulates the matrix product; sum1D, sub1D, dot1D, div1D, mul_value, add_value compute componentwise and touch nothing else.", "quantifier": "all sizes and contents", "why_tests_cant": "All shapes.", "anchors": ["src/math_functions.c:mat_mul", "src/math_functions.c:sum1D", "src/math_functions.c:dot1D"]}
{"id": "C46", "title": "L2 regularization adds the exact penalty gradient", "statement": "add_l2_* adds (lambda/n)*w to each weight gradient, once per weight, and does not change weights or biases.", "quantifier": "all layers and weights", "why_tests_cant": "All shapes and values.", "anchors": ["src/regularization.c:add_l2_fully_connected_layer"]}
{"id": "C47", "title": "Dropout mask", "statement": "set_dropout_mask zeroes exactly the positions whose draw falls below the threshold; get_dropout_array multiplies by the mask; masked units contribute nothing to the next layer; without a reset masks accumulate; switching to inference and back restores the layer, and the inference scale is the expected training output.", "quantifier": "all masks, draws, vectors, thresholds in [0,1], numbers of passes", "why_tests_cant": "All random sequences.", "anchors": ["src/utils.c:set_dropout_mask", "src/utils.c:get_dropout_array"]}
{"id": "C48", "title": "Data files are read into the arrays they describe", "statement": "For every file made of numbers each followed by a semicolon (one instance, or one per line), or of one character per number, the readers put number j of instance i in cell j of input i, or in cell j - input_size of output i, and change nothing else; a list of files is read up to the first one that cannot be opened, whose error is returned; a file of labelled examples gives their inputs and the one-hot vectors of their labels.", "quantifier": "all files of that shape, all splits, all arrays large enough, all functions for the value of a text", "why_tests_cant": "Unbounded numbers of rows, fields and characters.", "anchors": ["src/parser.c: single_instance_single_csv_file_parser, single_instance_multiple_csv_file_parser, multiple_instance_single_csv_file_parser, single_instance_single_file_parser, single_instance_multiple_file_parser, multiple_instance_single_file_parser, get_inputs_from_multiple_instances_single_char_binary_file_with_single_softmax_output, get_outputs_from_multiple_instances_single_char_binary_file_with_single_softmax_output"]}
{"id": "C49", "title": "Edge-popup score normalization keeps the ranking", "statement": "Normalizing the edge scores of a layer maps them into [0,1], reaches both ends and keeps the order of every pair of scores, provided two scores differ.", "quantifier": "all score vectors", "why_tests_cant": "The order must be kept for every pair of every score vector.", "anchors": ["src/normalization.c:normalize_scores_among_fcl_layers", "src/normalization.c:normalize_scores_among_cl_layers"]}
{"id": "C50", "title": "An update steps every trainable parameter exactly once", "statement": "update_model/update_rmodel with any optimizer apply exactly one optimizer step, with the mini-batch mean of its own gradient, to every trainable parameter of every layer, and change no frozen parameter.", "quantifier": "all layer kinds, sizes, training modes, gradients, optimizer states and optimizers", "why_tests_cant": "A parameter that is stepped twice, never, or with another parameter's state still trains plausibly; the defect depends on flag combinations and sizes.", "anchors": ["src/update.c:update_fully_connected_layer_adam", "src/update.c:update_convolutional_layer_adam", "src/update.c:update_lstm_layer_nesterov", "src/update.c:update_batch_normalized_layer_nesterov"]}
{"id": "C51", "title": "Vector layer", "statement": "ff_vector computes, entry by entry, the function its configuration names (add, subtract, multiply, divide, invert, negate, activation, dropout, slice, one-hot maximum, concatenation), without changing its configuration; bp_vector returns the gradient of <output_error, output> with respect to the input(s), on every training step; a saved and reloaded layer behaves as before.", "quantifier": "all configurations, sizes, stored vectors, inputs, errors and sequences of reset / forward / backward calls", "why_tests_cant": "Ranges over all real inputs and all earlier contents of the layer's buffers.", "anchors": ["src/vector.c:ff_vector", "src/vector.c:bp_vector", "src/vector.c:reset_vector", "src/vector.c:load_vector", "src/vector.c:save_vector", "src/vector.c:copy_vector"]}
{"id": "C52", "title": "Training a dense network", "statement": "For a network of fully connected layers of any depth and widths (any mix of activations, dropout while training, softmax on the last layer), the forward pass computes the composition of the layers; one training step (forward, error, backward) adds to every weight and bias error exactly the partial derivative of the chosen loss, returns the derivative with respect to the input, and changes no parameter; in test mode the forward pass scales instead of dropping; a normalization layer takes part in the gradient.", "quantifier": "all depths, layer widths, weights, inputs, targets, dropout draws, activations, training modes and losses", "why_tests_cant": "Ranges over all network shapes, all real parameters and inputs, and all dropout draws; a gradient error in one configuration still trains plausibly.", "anchors": ["src/model.c:model_tensor_input_ff", "src/model.c:model_tensor_input_bp", "src/model.c:ff_fcl_fcl", "src/model.c:bp_fcl_fcl", "src/model.c:ff_error_bp_model_once", "src/model.c:compute_model_error", "src/fully_connected_layers.c:reset_fcl"]}
{"id": "C53", "title": "Adaptive gradient clipping bounds every unit relative to its weights", "statement": "After adaptive_gradient_clipping_model(m,lambda,eps) the gradient norm of every unit (row of a weight matrix, kernel, LSTM gate row) is at most lambda*max(norm of the unit's weights, eps); each unit is scaled by one factor in [0,1]; units within the bound and all other gradients are unchanged.", "quantifier": "all models and recurrent models, all weights and gradients, lambda in (0,1), eps > 0", "why_tests_cant": "Holds per unit for every weight/gradient ratio; a test with one ratio cannot tell clipping from an inverted test.", "anchors": ["src/clipping_gradient.c:adaptive_gradient_clipping_fcl", "src/clipping_gradient.c:adaptive_gradient_clipping_cl", "src/clipping_gradient.c:adaptive_gradient_clipping_lstm", "src/clipping_gradient.c:adaptive_gradient_clipping_model"]}
{"id": "C54", "title": "The sharing variant of the categorical loss computes the same errors", "statement": "get_loss_for_dueling_categorical_dqn and its weight-sharing variant (_opt) return the same errors for the same networks, states, action and reward.", "quantifier": "all networks, states, actions, rewards and discounts", "why_tests_cant": "The two differ only when the online and the target network differ at the next state, on some inputs.", "anchors": ["src/dueling_categorical_dqn.c:get_loss_for_dueling_categorical_dqn", "src/dueling_categorical_dqn.c:get_loss_for_dueling_categorical_dqn_opt"]}
{"id": "C55", "title": "Quantile-regression errors are the gradient of the quantile Huber loss", "statement": "The errors returned by the quantile-regression losses for the taken action are the partial derivatives of the mean quantile Huber loss with respect to that action's predicted quantiles; the other actions' errors are unchanged; the priority reported is the loss.", "quantifier": "all numbers of actions and quantiles, all predictions and targets, including ties", "why_tests_cant": "A derivative over all reals; the plain variant reads past the last action's row only for that action.", "anchors": ["src/dueling_categorical_dqn.c:get_loss_for_qr_dqn", "src/dueling_categorical_dqn.c:get_loss_for_qr_dqn_opt", "src/dueling_categorical_dqn.c:get_loss_for_qr_dqn_opt_with_error"]}
{"id": "C56", "title": "OU noise schedule and reset", "statement": "The noise scale goes from max_sigma at time 0 down to min_sigma at decay_period, decreasing in between, and stays there; resetting the strategy returns the noise to its mean, so what follows does not depend on the history before the reset.", "quantifier": "all strategies, times, noise sequences and histories", "why_tests_cant": "All times and all histories before and after a reset.", "anchors": ["src/noise.c:get_action", "src/noise.c:reset_oustrategy"]}
{"id": "C57", "title": "A model description is parsed into the model it describes", "statement": "For every description whose first line names each layer and each residual block once, followed by each layer's name line and parameter line, parsing gives exactly the described fully-connected layers, convolutional layers and residual blocks, in the order of the text, each built from its own parameters; consecutive residual layers with the same block number form one block with the activation of its first layer.", "quantifier": "all descriptions of any length, all parameter values, all constructors of layers", "why_tests_cant": "Unboundedly many layers, block structures and parameter texts; stale buffers make each line depend on the lines before it.", "anchors": ["src/parser.c: parse_model_file, parse_model_without_learning_parameters_file, parse_model_without_arrays_file, parse_model_str, parse_model_without_learning_parameters_str"]}
{"id": "C58", "title": "Distance of NEAT genomes", "statement": "The distance of two genomes is always computed; it is not negative, 0 for a genome and its copies, symmetric, and it counts the connections that either genome lacks plus 0.4 times the mean weight difference of the common ones.", "quantifier": "all pairs of genomes of all populations that any sequence of mutations, crossovers and copies leads to, with any real weights", "why_tests_cant": "Ranges over all pairs of genomes of all histories; the error shows only for genomes with particular sets of numbers.", "anchors": ["src/speciation.c:compute_species_distance"]}
{"id": "C59", "title": "Generations of a NEAT evolution", "statement": "An evolution of any number of generations never writes outside its arrays or has undefined behaviour, always has genomes, all well formed; the fittest genome is never lost; every genome kept is put into exactly one species, the first one near enough or a new one, and representatives stay apart; a population that is too large is cut down to its fittest genomes; species that stop improving are eliminated.", "quantifier": "all accepted parameters, all fitness values in all generations, all random numbers, any number of generations", "why_tests_cant": "The population sizes, species and random choices of all generations; array bounds depend on the numbers of species and children.", "anchors": ["src/neat.c:init", "src/neat.c:neat_generation_run", "src/speciation.c:create_species, put_genome_in_species, delete_species_without_population", "src/fitness.c:sort_genomes_by_fitness, get_mean_specie_fitness, get_mean_fitness"]}
{"id": "C60", "title": "The ant-colony search space and its networks", "statement": "Setting up an ant-colony search builds exactly the requested space: for every weight of every layer its number of candidates, and the requested activation or all six. Whatever is called afterwards, an ant with a trail has a network of that space: the requested layers, every weight one of its candidates, zero biases, an allowed activation. Walks succeed while pheromones are positive; each edge is taken with a probability proportional to its pheromone, so every network of the space can be found. The best model is the network of the best trail.", "quantifier": "all numbers of layers, sizes, numbers of candidates, activations and ants, all sequences of calls, all random numbers", "why_tests_cant": "The space grows exponentially with the sizes; trails depend on random numbers and on the history of all pheromone updates.", "anchors": ["src/aco_process.c:init_aco, build_path_from_ant_index, build_path_from_ant_index_according_to_nodes, build_path_from_ant_index_according_to_subnodes, build_best_path_from_ant_index_according_to_subnodes, get_model_according_to_path, get_best_model", "src/aco_building.c:attach_layer", "src/aco_iterate.c:aco_tracker_build_model_complete2, compute_all_nodes_edges"]}
{"id": "C61", "title": "The pheromones of the ant-colony search", "statement": "Every update of the pheromones follows its rule: fading by the factor p, a gain on the trail of the leading ant (the first with the largest credit), of every ant, or of the best trail so far, kept between the two bounds. The best trail and its credit are never lost. Refreshing moves a pheromone towards the upper bound and never past it. Stagnation is the summed distance from the nearer bound, 0 exactly when every pheromone is at a bound. A search with positive pheromones stays so, and none of its calls fails, for any number of rounds.", "quantifier": "all setups, all sequences of calls before the update, all trails, credits and random numbers, any number of rounds", "why_tests_cant": "What an update does depends on the trails and the pheromones left by all earlier calls; failures such as a pheromone above its bound, a mark that is left behind or a division by zero need particular setups and histories.", "anchors": ["src/aco_process.c:update_pheromones, update_pheromones_according_to_nodes, update_pheromones_according_to_subnodes, update_pheromones_no_min_max, update_pheromones_best, update_pheromones_best_according_to_nodes, update_best_trail, update_taus, set_pheromone_to_index, get_stagnation, recompute_pheromones", "src/aco_iterate.c:update_aco_tracker_next_according_to_path"]}
{"id": "C62", "title": "The particle swarm of the ant-colony search", "statement": "Between rounds of ants the candidates of each weight are moved as a particle swarm. The fitness of a candidate is the pheromone that reaches it; a candidate never forgets its best fitness nor the place where it had it; all the candidates of one weight follow the first of those with the best fitness. One step moves every candidate at once by its velocity, at most v_max, except those that already are at the best place of their leader, and no other call moves a candidate. Rounds of the swarm never fail, from any state of the search.", "quantifier": "all setups, all sequences of earlier calls, all swarm parameters with v_max >= 0 and all random numbers, any number of rounds", "why_tests_cant": "The step reads pointers that earlier calls must have set for every candidate, and updates the candidates one after the other although each reads what others remember; a test sees one layout and one order of calls.", "anchors": ["src/aco_process.c:calculate_pso_function_per_node, calculate_pso_function_per_node_according_to_nodes, set_best_personal_node_fitness_pso, set_best_global_node_fitness_pso, set_best_global_node_fitness_pso_according_to_nodes, update_pso_nodes, reset_flags_from_aco_struct"]}
{"id": "C63", "title": "Evaluating a NEAT genome", "statement": "feed_forward evaluates every genome that any history of mutations and crossovers makes, loops included: it ends, reads and writes only memory it owns, and returns one activation per output. When no hidden node has two enabled outgoing connections, and no hidden node that leads to an output is without enabled incoming ones, the result is that of the network: each output is the activation of one plus the weighted sum of what its enabled connections bring, where an input brings its value and a hidden node the activation of its own weighted sum, at any depth and in whatever order the nodes and connections are stored. For other networks without loops this is false: of two connections that leave a hidden node one can be ignored, in a skip connection and in a fully connected layer with two outputs, and a hidden node without inputs can be dropped.", "quantifier": "all populations reachable by any sequence of calls, all their genomes, all weights and inputs, all activation functions; the refutations for all weights and inputs", "why_tests_cant": "The evaluation is a pair of mutually recursive walks whose order depends on how the genome came about; a test sees one shape and one storage order, and small shapes that NEAT starts with are exactly the trees for which the result is right.", "anchors": ["src/feedforward.c:feed_forward, ff_reconstruction, recursive_computation", "src/neat_utils.c:modified_sigmoid, copy_genome", "src/feed_structure.h:ff"]}
{"id": "C64", "title": "A saved NEAT genome or population is the one that is loaded", "statement": "Saving a genome to a file, or putting it into an array, and loading it gives a genome with the same nodes in the same order, the same connections (number, ends, weight, enabled flag), the same numbers of inputs and outputs and the same fitness; the complete variant also gives back the two innovation counts. The array has the size that is announced. Saving and loading a whole population gives back the shared innovation tables and the genomes (at most the new maximum), and the evolution can go on from there without undefined behaviour. A loaded genome evaluates to the same outputs.", "quantifier": "all genomes of all histories of NEAT calls, all weights and fitnesses, both byte orders, all later innovation counts, all numbers of genomes", "why_tests_cant": "Ranges over all genomes and histories; the orders of the connections that matter only arise from particular interleavings of the mutations of two genomes; byte order of hosts that tests do not have.", "anchors": ["src/neat_utils.c:save_genome", "src/neat_utils.c:save_genome_complete", "src/neat_utils.c:get_genome_array", "src/neat_utils.c:get_genome_array_size", "src/neat_utils.c:init_genome_from_array", "src/neat_utils.c:load_genome", "src/neat_utils.c:load_genome_complete", "src/neat.c:get_neat_in_char_vector", "src/neat.c:get_length_of_char_neat", "src/neat.c:init_from_char", "src/neat.c:save_neat", "src/neat.c:load_neat", "src/neat.c:save_ith_genome"]}
{"id": "C65", "title": "The flat vector of a network holds its arrays and can be written back", "statement": "The functions that copy the parameters, the weights, the edge-popup scores, the edge-popup indices or the derivatives of a layer, a model, a recurrent model, a dueling categorical DQN or an efficientzero model to a vector write exactly the announced number of elements from the given position: the arrays of the layers in a fixed order, nothing else of the vector being changed. Copying the vector back gives every array the elements from its place and changes nothing else; copying the vector of one network to another of the same shape makes them equal; copying a vector in and out gives it back. The index function of the dueling network gives the end of the layer that a score belongs to.", "quantifier": "all networks: all numbers, kinds, sizes and flags of layers, all contents, all positions in the vector", "why_tests_cant": "Ranges over all shapes and combinations of noisy layers, normalizations, groups, dropout layers and training modes; an offset error shows only in particular combinations and then as silently exchanged parameters.", "anchors": ["src/fully_connected_layers.c:get_array_size_params", "src/fully_connected_layers.c:memcopy_vector_to_params", "src/fully_connected_layers.c:memcopy_params_to_vector", "src/fully_connected_layers.c:memcopy_weights_to_vector", "src/convolutional_layers.c:memcopy_params_to_vector_cl", "src/convolutional_layers.c:memcopy_vector_to_params_cl", "src/residual_layers.c:memcopy_params_to_vector_rl", "src/recurrent_layers.c:memcopy_params_to_vector_lstm", "src/rmodel.c:memcopy_params_to_vector_rmodel", "src/model.c:memcopy_params_to_vector_model", "src/model.c:memcopy_vector_to_params_model", "src/model.c:set_model_training_edge_popup", "src/dueling_categorical_dqn.c:get_array_size_scores_index_dueling_categorical_dqn", "src/efficientzeromodel.c:memcopy_params_to_vector_efficientzeromodel"]}
{"id": "C66", "title": "Edge-popup scores are combined, reset and used to renew weights as documented", "statement": "Summing, comparing, averaging, dividing, resetting and lowering the edge-popup scores of models of the same shape acts on every score, place by place, and on nothing else: the sum is the sum, comparison keeps the best of the two scores, averaging gives the average of the models, and layers without scores are skipped. Re-initialising by scores renews the worst weights; setting the unused weights to zero zeroes those with the lowest scores.", "quantifier": "all models of the same shape, all numbers, kinds, sizes and flags of layers, all scores including NaN, all indices", "why_tests_cant": "Ranges over all shapes and mixes of layers with and without scores and over the values of all scores; the failures appear only for particular mixes, orders of arguments or values.", "anchors": ["src/fully_connected_layers.c:sum_score_fcl", "src/fully_connected_layers.c:compare_score_fcl", "src/fully_connected_layers.c:compare_score_fcl_with_vector", "src/fully_connected_layers.c:dividing_score_fcl", "src/fully_connected_layers.c:reset_score_fcl", "src/fully_connected_layers.c:reinitialize_weights_according_to_scores_fcl", "src/fully_connected_layers.c:reinitialize_weights_according_to_scores_fcl_only_percentage", "src/fully_connected_layers.c:set_fully_connected_unused_weights_to_zero", "src/convolutional_layers.c:compare_score_cl_with_vector", "src/convolutional_layers.c:reinitialize_weights_according_to_scores_cl_only_percentage", "src/convolutional_layers.c:set_convolutional_unused_weights_to_zero", "src/residual_layers.c:sum_score_rl", "src/model.c:sum_score_model", "src/model.c:compare_score_model", "src/model.c:avaraging_score_model", "src/model.c:reset_score_model"]}
{"id": "C67", "title": "A training step of the rainbow agent uses distinct stored transitions, drawn by class and weight, each trained once with its own data", "statement": "With reward sampling, a batch no larger than the number of stored transitions consists of different stored transitions; each entry is drawn by first choosing a reward class in proportion to (1/size of the class)^beta among the classes not exhausted, and then a transition of the class in proportion to (1/(1+uses))^alpha. With ranked sampling every entry is weighted by the inverse of its sampling probability to the power beta, relative to the largest such weight, so weights are in (0,1]. Every element of the batch is trained once, with its own state, action, return, next state, terminal flag, importance weight and discount, whatever the number of threads.", "quantifier": "all histories of stores and uses, all capacities, all alpha and beta in range, all batch sizes and numbers of threads, all values of the random draws", "why_tests_cant": "Ranges over all histories of the buffer and all random draws; a wrong share, weight or discount only changes the distribution or the speed of learning and is not visible in the result of one run.", "anchors": ["src/rainbow.c:train_rainbow", "src/utils.c:weighted_random_sample_rewards", "src/utils.c:subtracted_value_rewards", "src/multi_core_dueling_categorical_dqn.c:dueling_categorical_dqn_train_with_error"]}
{"id": "C68", "title": "The cycle check of connected structures reports exactly the graphs with a directed cycle, and can be repeated", "statement": "For every graph of connected structures made with the constructor, the check ends and answers 1 exactly when no directed cycle can be reached from the structure it is started from; a graph may be checked again, from any of its structures, with the same result.", "quantifier": "all finite graphs, all orders of the inputs and outputs of the structures, all starting structures and starting depths, all sequences of checks", "why_tests_cant": "Whether a cycle is found depends on the shape of the whole graph and on the order in which neighbours are listed; there are infinitely many graphs, and a test covers one graph in one order.", "anchors": ["src/struct_conn_handler.c:there_are_no_cycles", "src/struct_conn_handler.c:struct_handler"]}
{"id": "C69", "title": "The shared list of work files hands every file to at most one client at a time and never loses a name", "statement": "A file lists names, one per line, with a semicolon after the names that are handed out. Asking for work returns the first name that is not handed out and marks it, or NULL when there is none; giving a name back unmarks it; a reset unmarks all; nothing else in the file changes. Over every history no name is held by two clients; names of any length can be used; a crash of a client at any point loses no name; clients may ask and give back at the same time.", "quantifier": "all lists of names, all package sizes, all histories of asking, giving back and resetting, all crash points during a rewrite of the file, all interleavings of clients", "why_tests_cant": "The claim is about every history, every crash point and every schedule of several processes on one file; tests run a few short histories of one process.", "anchors": ["src/utils.c:read_files_from_file", "src/utils.c:set_files_free_from_file", "src/utils.c:remove_occupied_sets"]}
{"id": "C70", "title": "A training step of the DDPG agent", "statement": "One call of ddpg_train moves the critic one optimiser step towards reward + discount*(1-terminal)*(value of the next state by the target networks), moves the policy one step up the value the new critic gives its own actions, sums every derivative over the batch with nothing of earlier calls in it, moves the target networks softly towards the learned ones and leaves the agent ready for the next call; any sequence of batches can be trained on, the optimiser's time steps count the calls, and the parameters numbered 1 and 2 are used for policy and critic as documented.", "quantifier": "all networks (whatever their forward and backward functions), batches, hyper parameters and sequences of training calls", "why_tests_cant": "the targets are numbers inside the call; a test sees only that weights change and that losses fall, not which target they were computed from, and the time steps and left-over derivatives only matter over histories", "anchors": ["src/drl.c:ddpg_train", "src/drl.c:init_ddpg", "src/llab.h:ddpg"]}
{"id": "C71", "title": "Inverse Q-learning trains every recorded transition once per epoch with the derivative of its loss", "statement": "Training an inverse Q-learning agent for n epochs visits, in each epoch, every recorded transition exactly once, in consecutive full batches of a shuffled order; a batch changes the network by one update with the sum of the derivatives of the transitions of this batch; transitions that end an episode, and the last one, are trained on without a next state; the result does not depend on the number of threads; after epoch i the network is saved under the number i; the derivative is that of the documented loss -(Q_a - gamma V') + V + 1/(4 alpha2 (Q_a - gamma V')^2) with the soft values V.", "quantifier": "all data sets, batch sizes that divide them, thread counts, epochs, random numbers, networks (any forward pass, backward pass, clipping and update), action values, actions and constants", "why_tests_cant": "Order, batching and threads range over unbounded sets; a derivative is a statement about every point; derivatives that are kept from one batch to the next change the training slightly and never fail.", "anchors": ["src/iq.c: train_iqn", "src/math_functions.c: derivative_inverse_q_function_array", "src/model.c: inverse_q_function_model_error"]}
{"id": "C72", "title": "A variational autoencoder is trained on its reconstruction loss and the divergence of its latent distribution", "statement": "In the forward pass of a variational autoencoder the decoder gets mean + std * noise for every latent number, where the encoder's output holds the means and then the stds; in the backward pass the decoder gets the error as given, and the encoder gets the gradient, in its outputs, of the loss plus the Kullback-Leibler divergence of the latent distribution from the standard normal one (up to constant weights of the two); freeing the model frees everything it allocated, and freeing NULL does nothing.", "quantifier": "all latent sizes, encoder outputs, noises, errors, encoders and decoders whose backward pass is any function, loss functions, weights of the two terms", "why_tests_cant": "Being a gradient is a statement about every point and every decoder; a wrong factor only moves the point the training tends to; a leak and the freeing of NULL are not observable in results.", "anchors": ["src/vae_model.c: vae_model_tensor_input_ff, vae_model_tensor_input_bp, free_vae_model", "src/math_functions.c: dot1D, sum1D"]}
{"id": "C73", "title": "The positional encoding gives every position a vector of sines and cosines, of the documented frequencies", "statement": "sin_cos_positional_encoding_vector returns, for an even dimension, one vector per position in which sines and cosines alternate and every number is between -1 and 1. As documented (Attention Is All You Need), numbers 2m and 2m+1 of position pos are the sine and the cosine of pos / 10000^(2m/d), so the product of the vectors of two positions depends only on the distance of the positions. Refuted for the code: the power is taken before the division by d (10000^(2k)/d, with k the number instead of the pair), so from number 2 on everything is practically 0 or 1, two positions differ in every number but the first by at most their distance times d/10^8, and the product depends on more than the distance.", "quantifier": "every even dimension, length, position and number", "why_tests_cant": "a test of the shape and of the range of the numbers passes; that the vectors carry no position is a claim about all positions and dimensions", "anchors": ["src/positional_encoding.c: sin_cos_positional_encoding_vector"]}
{"id": "C74", "title": "Initial values of parameters stay within their bounds, whatever rand() returns", "statement": "r2 is in [0,1] and reaches both ends only for rand() = 0 and rand() = RAND_MAX; signed_r2(n) is in [-n,n] and, for an odd RAND_MAX, both signs are equally likely; generate_from_random_distribution(lo,hi) is in [lo,hi] and reaches both ends; random_normal never takes the logarithm of a number outside (0,1] and is at most sqrt(2 ln(RAND_MAX+1)) in size, a bound that is reached on both sides; the xavier and kaiming values are normal values scaled by the square root of 1/n, 2/(n1+n2), 2/n; random_beta is in [0,1] except that it is not a number exactly when rand() gives 0 twice.", "quantifier": "every RAND_MAX > 0 and every pair of results of rand()", "why_tests_cant": "the ends of the ranges are met once in 2^31 draws or 2^62 pairs of draws", "anchors": ["src/initialization.c: r2, signed_r2, generate_from_random_distribution, drand, random_normal, random_general_gaussian_xavier_init, random_general_gaussian_kaiming_init, signed_kaiming_constant, random_beta"]}
{"id": "C75", "title": "Policy-gradient training follows the gradient of its objective, and actions are drawn from the policy", "statement": "For every state of a training passage, the error that is propagated back is the gradient, with respect to the network's output, of minus reward times log-probability of the action taken (softmax with temperature), plus the entropy and diversity terms; the sum over the states goes into one update, whatever the number of threads. sample_action_from_output_layer draws action k with the probability the policy gives it. get_policies returns the network's output for every input. Refuted parts: the action drawn is always action 0 (and action 1, which does not exist, for one action), and drawing changes the scores; the entropy term has the sign that lowers the entropy; clipping reads a value the constructor never stored; get_policies returns the inputs when there are several threads, and leaves the array of networks when there are more inputs than threads; it leaves its buffers when there are more outputs than inputs; the error of a network with one output reads outside the probabilities.", "quantifier": "every network, scores, temperature, random number, number of actions, states, rewards, threads", "why_tests_cant": "the drawn action is random, so a test that sees action 0 cannot tell; the gradient claim ranges over all scores", "anchors": ["src/policy_gradient.c: init_policy_gradient, policy_gradient_training_passage, get_policies, sample_action_from_output_layer", "src/model.c: policy_gradient_model_error", "src/math_functions.c: sample_softmax_with_temperature", "src/utils.c: sort, merge_sort, merge"]}
{"id": "C76", "title": "Exploration noise, Dirichlet sample and decoding of a categorical prediction", "statement": "The factorised noise of a noisy layer is the outer product of one signed root of a normal value for each input and one for each output, with the bias noise equal to the output's root. A Dirichlet sample is a point of the simplex that depends on the concentration. A categorical prediction over the values offset, offset+1, ... is decoded to its expected value. mean and std are the average and the standard deviation. (The middle three fail: the sample ignores the concentration and can have negative or no entries; the decoded value is wrong by (n-1) times the offset; std is the square of the standard deviation.)", "quantifier": "every layer size, every sequence of normal values and of values of rand(), every number of entries, every distribution, offset and vector", "why_tests_cant": "The sample is random, so a test sees a few draws; that no concentration has an effect and that for every size some draws leave the simplex are statements about all of them.", "anchors": ["src/math_functions.c:factorised_gaussian", "src/math_functions.c:set_factorised_noise", "src/math_functions.c:random_gamma", "src/math_functions.c:dirichlet_sample", "src/math_functions.c:mul_array_values_by_indices", "src/math_functions.c:mean", "src/math_functions.c:std", "src/mcts.c:229", "src/mcts.c:322"]}
{"id": "C77", "title": "Life cycle of a fully-connected layer: copy, paste, reset and change of training mode", "statement": "A new layer has exactly the arrays its configuration needs. A copy has the same configuration, parameters, partial derivatives, optimizer values, connections and layer normalization. Pasting onto a layer of the same size copies everything both have and changes nothing else; pasting parameters alone copies only those. A reset keeps parameters and optimizer values, erases derivatives and the values of the current pass, draws new noise and re-ranks the edge-popup connections; the reset that excepts partial derivatives leaves all of them. The training mode can be changed at any time. Switching to inference and back gives the same layer. (Several parts fail: paste with more normalization groups and paste of parameters onto a smaller layer overrun arrays; the copy forgets the training mode of the layer normalization; reset keeps score derivatives outside edge-popup training; reset_fcl_without_dwdb erases other derivatives; a change of training mode leaves NULL arrays that the next reset writes to.)", "quantifier": "every configuration the constructor accepts, every state of the layer's arrays, every sequence of normal values, every pair of layers", "why_tests_cant": "Each operation branches on ten configuration fields and touches about forty arrays; a test sees one configuration at a time, and a write past the end of a heap array or a forgotten array often has no visible effect in one run.", "anchors": ["src/fully_connected_layers.c:fully_connected", "src/fully_connected_layers.c:copy_fcl", "src/fully_connected_layers.c:paste_fcl", "src/fully_connected_layers.c:paste_w_fcl", "src/fully_connected_layers.c:reset_fcl", "src/fully_connected_layers.c:reset_fcl_only_for_ff", "src/fully_connected_layers.c:reset_fcl_except_partial_derivatives", "src/fully_connected_layers.c:reset_fcl_without_dwdb", "src/fully_connected_layers.c:get_used_outputs", "src/fully_connected_layers.c:make_the_fcl_only_for_ff", "src/fully_connected_layers.c:inference_fcl", "src/fully_connected_layers.c:train_fcl", "src/batch_norm_layers.c:copy_bn", "src/batch_norm_layers.c:paste_bn", "src/batch_norm_layers.c:reset_bn", "src/model.c:set_model_training_edge_popup", "src/model.c:set_model_training_gd"]}
{"id": "C78", "title": "Merging the edge-popup scores of several networks", "statement": "scores_and_indices_readapter and scores_and_indices_readapter_float merge the edge-popup scores of several networks. Afterwards all networks have the same scores and indices. In every layer the indices name each connection exactly once, and the scores along the indices are 0, step, 2*step and so on. Connections that the networks together score higher get the higher score. The probabilities used to compare two connections are the probabilities that one normal value exceeds the other, and the connections are sorted by them. (The last two sentences fail: with two connections the ranking is turned over, the compared value is 3/2-P or 1/2-P instead of P, and with three connections the result is sorted in neither order.)", "quantifier": "every number of networks, every list of layers, every score, index and step, every function with the symmetry, growth and bounds of the error function", "why_tests_cant": "A wrong sort still returns a permutation and a plausible ranking; whether each layer is ranked separately and completely depends on all layer sizes, and the reversal shows only by comparison with the sums over networks.", "anchors": ["src/utils.c: scores_and_indices_readapter", "src/utils.c: scores_and_indices_readapter_float", "src/utils.c: readapt_scores", "src/utils.c: readapt_scores_float", "src/utils.c: set_float_vector_to_int_vector", "src/math_functions.c: get_sorted_probability_vector", "src/dueling_categorical_dqn.c: get_array_size_scores_index_dueling_categorical_dqn"]}
{"id": "C79", "title": "Normalizing the edge-popup scores of a model to the range from 0 to 1", "statement": "min_max_normalize_scores_among_all_leyers applies one affine map to all scores of a model, which takes the least score to 0 and the greatest to 1: afterwards all scores lie between 0 and 1, both ends occur, and the order of any two scores, also of different layers, is kept. normalize_scores_among_all_internal_layers does the same within each layer. Layers without scores are left alone. (Fails over all layers: equal scores give 0/0, layers without scores are read through NULL, scores above 9999999 never become 0.)", "quantifier": "every model with any number of fully-connected, convolutional and residual layers of any sizes, every score", "why_tests_cant": "The extremes may lie in any layer of any kind; a test with one layer kind misses a forgotten loop, and the fixed initial values matter only for values a test would not choose.", "anchors": ["src/normalization.c: min_max_normalize_scores_among_all_leyers", "src/normalization.c: given_max_min_normalize_fcl", "src/normalization.c: given_max_min_normalize_cl", "src/normalization.c: normalize_scores_among_all_internal_layers", "src/normalization.c: normalize_scores_among_fcl_layers", "src/normalization.c: normalize_scores_among_cl_layers"]}
{"id": "C80", "title": "Multi-head attention: the backward pass takes apart what the forward pass has interleaved", "statement": "multi_head_attention_ff puts the heads of each token side by side. multi_head_attention_bp gives each head the part of the error that belongs to its outputs: channel c of token i of head j. So taking the interleaved heads apart gives the heads back, for every width of the values, whatever the width of the keys. (Fails when the widths differ: with wider keys the temporary array is overrun, with narrower keys tokens overwrite each other.)", "quantifier": "every number of tokens and heads, every width of keys and values, every error", "why_tests_cant": "A test with equal widths passes; the offsets are products of four sizes, and an overrun of a heap array often has no visible effect.", "anchors": ["src/attention.c: multi_head_attention_bp", "src/attention.c: multi_head_attention_ff"]}
