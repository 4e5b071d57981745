{
 "claims": [
  {
   "property": "C01",
   "status": "partial",
   "theorems": [
    "C01_shuffle_permutes",
    "C01_every_permutation_reachable",
    "C01_every_permutation_reachable_refuted"
   ],
   "note": "Permutation and bounds proved for all inputs. Reachability of every permutation proved when n(n-1)<=RAND_MAX and refuted without that bound."
  },
  {
   "property": "C02",
   "status": "partial",
   "theorems": [
    "C02_pairs_stay_aligned",
    "C02_float_int_vectors_partial",
    "C02_float_int_int_vectors_partial",
    "C02_int_labels_refuted",
    "C02_int_int_labels_refuted"
   ],
   "note": "Proved for the two-array functions and for the matrices and float vector of the label variants. False of the int label vectors: refuted with a witness."
  },
  {
   "property": "C03",
   "status": "partial",
   "theorems": [
    "C03_partial_shuffle_selects_without_replacement",
    "C03_any_prefix_reachable",
    "C03_every_selection_refuted",
    "C03_length_zero_or_too_long_is_undefined"
   ],
   "note": "No-duplicate selection proved. 'Any selection' is false: the last selected entry always comes from the first len positions."
  },
  {
   "property": "C04",
   "status": "proved",
   "theorems": [
    "C04_quick_sort_sorts",
    "C04_quick_sort_whole_array"
   ],
   "note": "All arrays and segments over any strict weak order (ints, non-NaN floats)."
  },
  {
   "property": "C05",
   "status": "partial",
   "theorems": [
    "C05_sort_keeps_all_indices_partial",
    "C05_sort_refuted_positions",
    "C05_sort_refuted_truncation"
   ],
   "note": "Permutation part proved; the ordering is false of the code (two independent defects) and refuted with witnesses."
  },
  {
   "property": "C06",
   "status": "proved",
   "theorems": [
    "C06_argmax_first_maximum",
    "C06_argmax_empty"
   ],
   "note": ""
  },
  {
   "property": "C07",
   "status": "proved",
   "theorems": [
    "C07_sift_up_restores_heap",
    "C07_sift_down_restores_heap",
    "C07_remove_keeps_heap",
    "C07_remove_outside_is_noop"
   ],
   "note": "Over any priority type with a strict weak order (C floats without NaN)."
  },
  {
   "property": "C08",
   "status": "proved",
   "theorems": [
    "C08_history_keeps_buffer_consistent",
    "C08_new_transition_ranks_first",
    "C08_stored_error_changes_one_slot"
   ],
   "note": "Any history of additions and stored errors for occupied positions, any capacity > 0; priorities without NaN."
  },
  {
   "property": "C09",
   "status": "partial",
   "theorems": [
    "C09_single_position_batch_partial",
    "C09_priority_update_refuted"
   ],
   "note": "The full property is false: heap positions sampled before the training step are reused after earlier updates moved the entries (refuted by witness). Proved: safety for every batch, exact effect for batches with one distinct position."
  },
  {
   "property": "C10",
   "status": "proved",
   "theorems": [
    "C10_tree_stores_subtree_sums",
    "C10_update_changes_only_ancestors",
    "C10_value_is_child"
   ],
   "note": "Exact real arithmetic; any number of elements and any history of weight changes."
  },
  {
   "property": "C11",
   "status": "partial",
   "theorems": [
    "C11_weighted_sample_is_proportional",
    "C11_batch_has_no_repetition",
    "C11_draw_zero_refuted"
   ],
   "note": "Exact real arithmetic, draws in (0,1]: proportional intervals and no repetition. For the draw 0 the without-replacement claim is false (refuted by witness). Missing: float rounding."
  },
  {
   "property": "C12",
   "status": "proved",
   "theorems": [
    "C12_reward_classes_stay_consistent",
    "C12_lengths_add_up",
    "C12_nan_reward_refuted"
   ],
   "note": "All histories of stores and uses without NaN rewards. With a NaN reward the claim is false of the code: C12_nan_reward_refuted."
  },
  {
   "property": "C13",
   "status": "proved",
   "theorems": [
    "C13_n_step_return",
    "C13_window_is_one_episode"
   ],
   "note": "Exact reals; composed with the ring-buffer histories of C08."
  },
  {
   "property": "C14",
   "status": "proved",
   "theorems": [
    "C14_range",
    "C14_non_increasing",
    "C14_reaches_minimum",
    "C14_initial_value_refuted"
   ],
   "note": "From the first call on; the initial value is not checked against the range (C14_initial_value_refuted). Exact reals."
  },
  {
   "property": "C15",
   "status": "proved",
   "theorems": [
    "C15_seen_before",
    "C15_mixed_lengths_answer_prefix",
    "C15_mixed_lengths_refuted"
   ],
   "note": "Arrays of one length; for mixed lengths the exact behaviour (prefix of an earlier array) is proved and shown not to be a set."
  },
  {
   "property": "C16",
   "status": "proved",
   "theorems": [
    "C16_confusion_counts",
    "C16_outcomes_partition",
    "C16_metrics",
    "C16_nan_refuted"
   ],
   "note": "Non-NaN outputs; metrics are percentages over exact reals. NaN outputs are counted nowhere (C16_nan_refuted)."
  },
  {
   "property": "C17",
   "status": "partial",
   "theorems": [
    "C17_applies_from_threshold_on",
    "C17_constant_decay_bound_partial",
    "C17_time_based_partial",
    "C17_minimum_refuted",
    "C17_schedule_refuted",
    "C17_cosine_range",
    "C17_cosine_maximum_refuted"
   ],
   "note": "The claimed contract is false of the code: exact behaviour and the bounds that do hold are proved, the violations are refutation theorems (dangling else, minimum not respected, annealing unreachable, division by zero at epoch 0)."
  },
  {
   "property": "C18",
   "status": "proved",
   "theorems": [
    "C18_itoa_writes_decimal",
    "C18_text_determines_number",
    "C18_int_min_refuted"
   ],
   "note": "All ints but INT_MIN, for which the code is undefined."
  },
  {
   "property": "C19",
   "status": "partial",
   "theorems": [
    "C19_reverse_ptr_partial",
    "C19_reverse_ptr_involution_partial",
    "C19_little_endian_identity",
    "C19_big_endian_conversion_refuted",
    "C19_big_endian_out_of_bounds_refuted",
    "C19_intended_loop"
   ],
   "note": "reverse_ptr is correct; swap_array_bytes_order works on the address of its own parameter, so on big-endian hosts nothing is converted and arrays over 8 bytes overrun it."
  },
  {
   "property": "C20",
   "status": "proved",
   "theorems": [
    "C20_clip_vector",
    "C20_copy_clipped_vector",
    "C20_clip_idempotent",
    "C20_bad_bounds_exit"
   ],
   "note": "Any element type with an irreflexive transitive comparison (floats with NaN included)."
  },
  {
   "property": "C21",
   "status": "proved",
   "theorems": [
    "C21_softmax_is_a_distribution",
    "C21_shift_invariant",
    "C21_masked_softmax_is_a_distribution",
    "C21_derivative_softmax_is_the_gradient",
    "C21_masked_derivative_is_the_gradient"
   ],
   "note": "Exact reals; plain and masked versions, forward and Jacobian product."
  },
  {
   "property": "C22",
   "status": "proved",
   "theorems": [
    "C22_sigmoid_is_logistic",
    "C22_tanhh_is_tanh",
    "C22_sigmoid_derivative",
    "C22_sigmoid_derivative_from_output",
    "C22_tanh_derivative",
    "C22_relu_derivative",
    "C22_leaky_relu_derivative",
    "C22_elu_derivative",
    "C22_kinks_use_left_derivative",
    "C22_ranges",
    "C22_monotone",
    "C22_array_versions"
   ],
   "note": "Exact reals; kinks excluded and shown to return the left derivative."
  },
  {
   "property": "C23",
   "status": "partial",
   "theorems": [
    "C23_mse",
    "C23_cross_entropy",
    "C23_cross_entropy_saturated",
    "C23_cross_entropy_with_softmax",
    "C23_cross_entropy_with_softmax_needs_distribution",
    "C23_huber_partial",
    "C23_huber_refuted",
    "C23_modified_huber",
    "C23_focal",
    "C23_kl_divergence",
    "C23_entropy",
    "C23_contrastive_partial",
    "C23_contrastive_refuted",
    "C23_total_variation_refuted",
    "C23_array_versions"
   ],
   "note": "Refuted for Huber (sign reversed), contrastive beyond the margin (no return) and total variation (wrong signs, uninitialised sum); proved for the others."
  },
  {
   "property": "C24",
   "status": "partial",
   "theorems": [
    "C24_forward",
    "C24_forward_without_bias",
    "C24_forward_cleared",
    "C24_backward",
    "C24_backward_without_bias",
    "C24_noisy_forward",
    "C24_noisy_backward_partial",
    "C24_noisy_backward_refuted",
    "C24_noisy_input_error_refuted"
   ],
   "note": "Dense forward and backward are exact for every size (over exact reals). The noisy variant is exact only when weight errors start at zero: the code multiplies the accumulated weight error by the noise (refuted in general), and without biases its input error ignores the noise (refuted)."
  },
  {
   "property": "C25",
   "status": "proved",
   "theorems": [
    "C25_forward",
    "C25_depends_only_on_selected",
    "C25_backward",
    "C25_backward_gd"
   ],
   "note": "Every selection that is a suffix of a permutation of the edges; exact reals. Biases are ignored by the code (commented out)."
  },
  {
   "property": "C26",
   "status": "proved",
   "theorems": [
    "C26_forward",
    "C26_backward",
    "C26_backward_without_bias"
   ],
   "note": "Every shape with kernel <= input and non-zero strides; exact reals. The forward theorem includes absence of out-of-bounds accesses and the untouched padding border."
  },
  {
   "property": "C27",
   "status": "proved",
   "theorems": [
    "C27_forward_unpadded",
    "C27_forward_padded",
    "C27_adjoint",
    "C27_backward"
   ],
   "note": "Exact reals. Adjointness is stated against the C26 correlation; with padding the output is overwritten instead of accumulated."
  },
  {
   "property": "C28",
   "status": "partial",
   "theorems": [
    "C28_max_forward_partial",
    "C28_max_forward_refuted",
    "C28_max_backward_partial",
    "C28_max_backward_refuted",
    "C28_average_forward",
    "C28_average_backward_partial",
    "C28_average_backward_refuted"
   ],
   "note": "Average forward is exact. Max forward needs one window value >= -999999 (sentinel; refuted otherwise). Both backward passes overwrite, so they are right only when windows do not overlap (stride >= window); refuted for overlapping windows."
  },
  {
   "property": "C29",
   "status": "proved",
   "theorems": [
    "C29_cell_equations",
    "C29_states_bounded"
   ],
   "note": "Over exact reals. The forward pass computes the LSTM equations and stays inside its arrays; hidden values are in (-1,1) and cell values grow by less than one per step, for every stack, window length and input."
  },
  {
   "property": "C30",
   "status": "partial",
   "theorems": [
    "C30_cell",
    "C30_back_propagation_through_time",
    "C30_input_gradient",
    "C30_input_error_computed",
    "C30_input_error_refuted",
    "C30_window_of_one_is_undefined"
   ],
   "note": "Proved over exact reals: the parameter errors are the exact gradient for every stack, dropout masks and every window of at least two steps. Refuted for the error passed to the input (lstm_dinput) and for windows of one step (out of bounds read). Missing: residual connections, edge popup, group normalization."
  },
  {
   "property": "C31",
   "status": "partial",
   "theorems": [
    "C31_attention",
    "C31_masking_is_causal",
    "C31_backward_is_the_gradient",
    "C31_heads_are_interleaved",
    "C31_token_major_values_leak_refuted",
    "C31_channel_major_keys_leak_refuted",
    "C31_reshape_out_of_bounds_refuted"
   ],
   "note": "Weights, causality and gradients proved over the reals for the layout the code reads (queries/keys token by token, values channel by channel) and a zeroed softmax buffer. Refuted: with token-major values, or channel-major keys as the documentation prescribes, masking leaks later tokens; multi-head reshape reads out of bounds when keys are wider than values."
  },
  {
   "property": "C32",
   "status": "partial",
   "theorems": [
    "C32_batch_norm",
    "C32_batch_norm_parameter_gradient",
    "C32_batch_norm_input_error_refuted",
    "C32_dataset_statistics_computed",
    "C32_dataset_statistics_refuted",
    "C32_scaled_l2",
    "C32_scaled_l2_gradient",
    "C32_layer_norm",
    "C32_layer_norm_one_group_ignores_input",
    "C32_group_norm_one_group",
    "C32_group_norm_leaves_last_entry",
    "C32_local_response",
    "C32_local_response_backward_refuted"
   ],
   "note": "Forward passes proved; gamma/beta and scaled-l2 gradients exact. Refuted: the batch-normalization input error is not the gradient, the inference statistics use only the first mini-batch, group normalization with two or more groups uses a float offset instead of a channel offset and never writes the end of the tensor, the LRN backward pass weights by the wrong error. One-group layer normalization outputs beta for every input. Exact reals instead of floats; padded group normalization with several groups is only covered by the negative theorem."
  },
  {
   "property": "C33",
   "status": "proved",
   "theorems": [
    "C33_nesterov",
    "C33_nesterov_no_momentum",
    "C33_adam",
    "C33_adam_zero_gradient",
    "C33_adam_constant_gradient",
    "C33_adam_step_bounded",
    "C33_adam_scale_invariant",
    "C33_adam_moment_in_range",
    "C33_diff_grad",
    "C33_adamod",
    "C33_radam",
    "C33_radam_warm_up",
    "C33_radam_t0_skips_warm_up"
   ],
   "note": "Each optimizer function equals its published recurrence over exact reals for every gradient history; RAdam started with t=0 (policy_gradient.c:99) skips the rectification warm-up."
  },
  {
   "property": "C34",
   "status": "partial",
   "theorems": [
    "C34_clipping",
    "C34_dqn",
    "C34_vae",
    "C34_encoder",
    "C34_decoder",
    "C34_transformer",
    "C34_general_models_partial",
    "C34_lstm_scores_partial",
    "C34_general_enlarges_refuted",
    "C34_general_heads_refuted",
    "C34_layer_norm_refuted",
    "C34_noisy_refuted",
    "C34_lstm_reads_past_refuted",
    "C34_lstm_biases_refuted"
   ],
   "note": "Proved in full (exact factor, nothing else touched, norm afterwards = min(N,threshold)) for models, dueling DQNs, VAEs, encoders, decoders and transformers of any size whose dense layers are neither noisy nor normalized and whose layers are distinct objects, and for square LSTMs trained by scores. False of the code elsewhere: general_clipping_gradient scales everything but models without testing the norm and mixes up the residual-layer counts of k and v; above the threshold a normalized dense layer makes clip_bns run past its single normalization layer; noise-parameter gradients are neither counted nor scaled; the LSTM norm adds bias gradients instead of their squares and runs past d_recurrent_w when input > output."
  },
  {
   "property": "C35",
   "status": "partial",
   "theorems": [
    "C35_models_partial",
    "C35_pair_partial",
    "C35_rmodels",
    "C35_vae_partial",
    "C35_noisy_refuted",
    "C35_layer_norm_refuted",
    "C35_group_gamma_refuted",
    "C35_group_beta_refuted",
    "C35_residual_scores_refuted"
   ],
   "note": "Networks of dense, convolutional and residual layers of any number (no noise, no normalization, residual layers not trained by scores), for any number of copies at any addresses: every trained gradient of the accumulator grows by the sum over all instances and nothing else changes. LSTM networks are covered completely, with group normalization. Refuted for the rest, for every network: noise gradients and layer-norm d_beta are never added, group-norm d_gamma is never added and d_beta is added twice, residual scores are added only up to n_kernels."
  },
  {
   "property": "C36",
   "status": "partial",
   "theorems": [
    "C36_models_partial",
    "C36_dqns_partial",
    "C36_race_free",
    "C36_group_beta_refuted"
   ],
   "note": "Small-step interleaving semantics of the recursive fork/join reduction, any number of instances: every execution is finite, never stuck, race free, and ends in the same heap, in which the accumulator holds the old value plus the sum of all instances. Race freedom and termination hold for all layers; the value theorem has the layer restriction of C35, and for group normalization the result differs from the sequential one (refuted)."
  },
  {
   "property": "C37",
   "status": "partial",
   "theorems": [
    "C37_ff",
    "C37_bp",
    "C37_rmodel_ff",
    "C37_rmodel_bp",
    "C37_no_threads",
    "C37_genomes",
    "C37_genomes_with_indices",
    "C37_loss_partial",
    "C37_loss_refuted",
    "C37_loss_empty_refuted",
    "C37_dqn_refuted",
    "C37_dqn_results_refuted"
   ],
   "note": "Proved for all batch sizes, thread counts >= 1 and schedules for the forward, backward and combined functions of models, recurrent models and VAEs and for the genome functions: the memory left is that of processing every instance once, in order, and no execution races or blocks. The work on an instance is arbitrary code that writes only its own cells and reads no cell of another instance. False for the batch loss (the last n mod threads instances are dropped; an empty batch divides by zero) and for the dueling networks trained on q functions (only the first `threads` instances are used; results are read from dead block variables)."
  },
  {
   "property": "C38",
   "status": "partial",
   "theorems": [
    "C38_aggregation",
    "C38_needs_reset",
    "C38_quantiles",
    "C38_q_functions",
    "C38_q_functions_qr",
    "C38_value_error",
    "C38_advantage_error_refuted",
    "C38_advantage_error_actual",
    "C38_qr_value_error",
    "C38_qr_advantage_error_partial",
    "C38_qr_advantage_error_refuted"
   ],
   "note": "Forward combination, per-action distributions, quantiles and Q functions, and the value stream's errors hold for all sizes and inputs (from reset buffers: the functions add to them). The advantage stream's errors are not the gradient: the categorical one for every network (actual value proved), the quantile one unless n_atoms = number of actions."
  },
  {
   "property": "C39",
   "status": "partial",
   "theorems": [
    "C39_projection",
    "C39_loss",
    "C39_priority",
    "C39_single_value_refuted",
    "C39_float_refuted"
   ],
   "note": "Over exact reals with v_min < v_max the projection stays in range, keeps the total, the mean of the clipped targets and non-negativity, and the loss errors are the gradient of the cross entropy. False in binary32 (62 atoms on [-1,1]: a write one past the end) and for v_min = v_max."
  },
  {
   "property": "C40",
   "status": "partial",
   "theorems": [
    "C40_reals",
    "C40_floats_partial",
    "C40_floats_call_partial",
    "C40_nan_refuted",
    "C40_state_bounded",
    "C40_exact"
   ],
   "note": "Over exact reals every action of every call of every history is in range. In binary32 the same, except that an action that is NaN (a NaN given by the caller, C40_nan_refuted, or a noise state that became NaN by overflow) stays NaN. The noise state stays bounded for every sequence of rand() values (reals)."
  },
  {
   "property": "C41",
   "status": "partial",
   "theorems": [
    "C41_normalization_layers",
    "C41_convolutional_layers",
    "C41_residual_layers",
    "C41_l2_layers",
    "C41_recurrent_layers",
    "C41_fully_connected_layers_partial",
    "C41_fully_connected_k_percentage_refuted",
    "C41_only_dropout_refuted",
    "C41_freeze_biases_refuted",
    "C41_models_partial",
    "C41_models",
    "C41_load_model_partial",
    "C41_one_after_the_other",
    "C41_lists",
    "C41_second_save_refuted",
    "C41_given_directory_refuted",
    "C41_unsorted_residual_refuted",
    "C41_recurrent_networks",
    "C41_recurrent_mixed_edge_popup_refuted",
    "C41_encoders_partial",
    "C41_decoders_partial",
    "C41_transformers_partial",
    "C41_transformers_refuted",
    "C41_dueling_networks_partial",
    "C41_dueling_given_directory_refuted",
    "C41_efficientzero_partial",
    "C41_autoencoders_partial",
    "C41_autoencoders_one_file_refuted",
    "C41_vectors_refuted",
    "C41_vectors_without_content"
   ],
   "note": "Bit for bit round trip of normalization, convolutional, residual, L2 and recurrent layers and of recurrent networks, whatever the parameters and whatever else is in the file. Fully connected layers, and everything that contains them, come back with k_percentage = 1 (not saved): the full property is false, exactly when k_percentage was something else. Refuted: dropout-only and freeze-biases layers, given-directory variants, a second save to the same file, unsorted residual blocks, transformers with decoders, one-file autoencoders, vectors with content, edge-popup feed forward with another training mode. Optimizer moments are not saved and not in the model."
  },
  {
   "property": "C42",
   "status": "partial",
   "theorems": [
    "C42_fcl",
    "C42_cl",
    "C42_lstm_partial",
    "C42_l2",
    "C42_model",
    "C42_rmodel_partial",
    "C42_dqn",
    "C42_vae",
    "C42_encoder",
    "C42_decoder",
    "C42_transformer",
    "C42_model_tracks",
    "C42_rmodel_tracks_partial",
    "C42_dqn_tracks",
    "C42_vae_tracks",
    "C42_transformer_tracks",
    "C42_lstm_refuted",
    "C42_cl_moments_refuted"
   ],
   "note": "Over exact reals. For every pair of networks of the same shape, whose layers are distinct, one soft update moves every parameter to tau*source+(1-tau)*target and leaves everything else alone; after n updates the target is source+(1-tau)^n*(target-source), it stays in the segment, never moves away and (0<tau<=1) converges. Partial: LSTM layers with edge-popup scores are covered only when output_size <= input_size; otherwise the update sorts past the end of an array (C42_lstm_refuted). The optimizer buffers of the scores of a convolution are mixed with the wrong array (C42_cl_moments_refuted). Not modelled: running statistics of normalizations (the code does not update them), float rounding."
  },
  {
   "property": "C43",
   "status": "partial",
   "theorems": [
    "C43_counts_consistent",
    "C43_visit_counts_its_path",
    "C43_actions_counted",
    "C43_visits_defined",
    "C43_values_bounded",
    "C43_parent_value_refuted",
    "C43_root_count_refuted",
    "C43_root_choice_refuted",
    "C43_other_actions_refuted",
    "C43_first_choice",
    "C43_normalisation_refuted",
    "C43_policy_is_distribution",
    "C43_policy_defined",
    "C43_policy_overflow_refuted",
    "C43_policy_frequencies",
    "C43_policy_constant_refuted",
    "C43_policy_unvisited_refuted",
    "C43_reading_policy_refuted",
    "C43_root_value_bounded"
   ],
   "note": "Counts are proved for every history and any arithmetic (floats included). Values are bounded and the policy is a distribution over the exact reals. Refuted: the evaluation of a node never reaches its parent's value; the count of the root stays 0; with probabilities below 1 the inverted comparison at the root only ever takes the first action (or reads edges[-1]), so the policy is constant; the first edge's value is not normalised; reading the policy with a temperature above 1 overwrites the counts, below 1/10 it can overflow; before a visit the policy is all zeros."
  },
  {
   "property": "C44",
   "status": "proved",
   "theorems": [
    "histories_are_well_formed",
    "same_number_same_connection",
    "connections_join_the_right_nodes",
    "split_splits",
    "same_split_same_numbers",
    "connect_connects",
    "remove_disables_one",
    "activate_enables_one",
    "activate_many_enables",
    "weights_change_once",
    "copy_copies",
    "adjust_sorts",
    "crossover_mixes",
    "free_frees_once",
    "bias_flags_are_initialised_refuted",
    "genomes_stay_feed_forward_refuted"
   ],
   "note": "All histories of calls on a population, all random choices. activate_bias is always undefined (bias_flag is never initialised) and genomes may contain cycles: both refuted. Activation values and fitness are not modelled here."
  },
  {
   "property": "C45",
   "status": "proved",
   "theorems": [
    "C45_mat_mul",
    "C45_elementwise",
    "C45_in_place",
    "C45_scale_and_shift"
   ],
   "note": "Exact reals; the product is accumulated into the destination, as in the code."
  },
  {
   "property": "C46",
   "status": "partial",
   "theorems": [
    "C46_fcl",
    "C46_lstm",
    "C46_conv",
    "C46_conv_edge_popup_refuted",
    "C46_update_model_fcl"
   ],
   "note": "Exact penalty for fully connected, LSTM and gradient-descent convolutions; false for edge-popup convolutions (all penalties of kernel k go to score k)."
  },
  {
   "property": "C47",
   "status": "proved",
   "theorems": [
    "C47_mask",
    "C47_mask_accumulates_without_reset",
    "C47_training_output",
    "C47_masked_units_contribute_nothing",
    "C47_mode_switch",
    "C47_test_scale_is_the_expectation"
   ],
   "note": "Draws are an oracle; expectation is over the N+1 equally likely values of one draw. The test-mode branches of ff_fcl_fcl that scale the wrong array are treated with the dense network."
  },
  {
   "property": "C48",
   "status": "proved",
   "theorems": [
    "csv_row_is_read",
    "csv_row_cells",
    "csv_table_is_read",
    "csv_files_are_read",
    "csv_missing_file",
    "chars_are_read",
    "char_table_is_read",
    "char_files_are_read",
    "labelled_examples_are_read",
    "csv_unterminated_number_refuted",
    "csv_long_number_refuted",
    "csv_too_many_numbers_refuted",
    "chars_final_newline_refuted",
    "labelled_lines_refuted",
    "label_out_of_range_refuted",
    "label_missing_file_refuted",
    "csv_number_before_newline_is_dropped_refuted"
   ],
   "note": "Every file of the documented shape is read exactly. The refuted theorems say what happens to files that are slightly off: a last number without semicolon is dropped silently, numbers of 256 characters or more, surplus numbers, a final newline in a file of characters and a label out of range write outside of their buffers, labelled examples on separate lines are read one place off."
  },
  {
   "property": "C49",
   "status": "proved",
   "theorems": [
    "C49_scores_normalized"
   ],
   "note": "Scores in the sentinel range [-99999999, 999999999] with at least two different values (otherwise the code divides by zero)."
  },
  {
   "property": "C50",
   "status": "partial",
   "theorems": [
    "C50_fcl",
    "C50_conv",
    "C50_conv_once",
    "C50_lstm",
    "C50_lstm_nesterov_adamod",
    "C50_lstm_edge_popup_refuted",
    "C50_group_norm_refuted"
   ],
   "note": "True for fully connected layers, convolutions without group normalization and LSTM layers with adam/radam/diff-grad. False of the code for: group-norm parameters (stepped once per kernel), normalization parameters under nesterov (mini-batch size ignored), LSTM edge-popup under nesterov and adamod (buffers of another array)."
  },
  {
   "property": "C51",
   "status": "partial",
   "theorems": [
    "C51_forward",
    "C51_backward_is_the_gradient",
    "C51_softmax_backward",
    "C51_softmax_second_step_refuted",
    "C51_dropout_forward",
    "C51_dropout_test_scale",
    "C51_dropout_backward_refuted",
    "C51_get_max",
    "C51_resize",
    "C51_two_inputs",
    "C51_two_inputs_backward",
    "C51_concatenation",
    "C51_concatenation_backward",
    "C51_configuration_overwritten_refuted",
    "C51_load_loses_the_vector",
    "C51_save_load_refuted",
    "C51_copy"
   ],
   "note": "Forward and backward proved for all elementwise, slice, two-input and concatenation configurations. Refuted parts: dropout is ignored by the backward pass, softmax errors accumulate over steps, two-input calls overwrite other action codes with CONCATENATE, GET_MAX with all entries <= -1 writes out of bounds, load_vector drops the stored vector."
  },
  {
   "property": "C52",
   "status": "partial",
   "theorems": [
    "C52_reset",
    "C52_forward",
    "C52_backward_is_the_gradient",
    "C52_training_step",
    "C52_huber_step_ascends_refuted",
    "C52_test_mode_last_layer_refuted",
    "C52_test_mode_linear_layer_refuted",
    "C52_normalization_gradient_dropped_refuted"
   ],
   "note": "Proved for every depth: forward pass, full gradient of any supported loss, reset. Refuted: HUBER1_LOSS steps along minus the gradient; in test mode the output of a last layer with dropout is stale (all ones after reset) and a hidden linear layer with dropout hands over the next layer's cleared buffer; without dropout the normalization gradient is dropped. Convolutional and residual layers of a model are not in this network model."
  },
  {
   "property": "C53",
   "status": "partial",
   "theorems": [
    "C53_model_partial",
    "C53_rmodel_partial",
    "C53_large_gradients_untouched_refuted",
    "C53_small_gradients_shrunk_refuted",
    "C53_conv_scores_refuted"
   ],
   "note": "The common factor in [0,1] per unit and the frame condition hold (convolutions trained by scores excepted). The bound is false for every network: the tested ratio is max(|w|,eps)/|g| instead of its inverse, so units with |g| >= max(|w|,eps)/lambda are untouched and units within the bound are shrunk; for convolution scores only the last score of each kernel is scaled."
  },
  {
   "property": "C54",
   "status": "partial",
   "theorems": [
    "C54_refuted"
   ],
   "note": "False: the plain loss takes the target distribution of the online network instead of the target network's; concrete values differ."
  },
  {
   "property": "C55",
   "status": "partial",
   "theorems": [
    "C55_opt",
    "C55_with_error",
    "C55_plain_last_refuted",
    "C55_plain_refuted",
    "C55_variants_refuted"
   ],
   "note": "Proved for the two weight-sharing variants (fractions (k+1)/n, resp. midpoints) for all sizes and values. The plain variant uses the next action's predictions and reads past the end for the last action."
  },
  {
   "property": "C56",
   "status": "partial",
   "theorems": [
    "C56_ends_partial",
    "C56_decay_refuted",
    "C56_reset_refuted"
   ],
   "note": "Only the end points hold: the quotient t/decay_period is one of integers, so sigma is max_sigma at every time before decay_period (C56_decay_refuted). reset_oustrategy writes an array nothing reads; the noise state and all later actions are unaffected (C56_reset_refuted)."
  },
  {
   "property": "C57",
   "status": "proved",
   "theorems": [
    "description_is_parsed",
    "missing_description",
    "short_line_reuses_refuted",
    "documented_header_refuted",
    "missing_newline_refuted"
   ],
   "note": "Five of the six parsers (parse_model_without_arrays_str is left out). The format in the comments of the code does not work: a first line of numbers makes the first layer be written through a null pointer. A parameter line with too few numbers silently takes the missing ones from the layer before it. network() and residual() are not part of the model."
  },
  {
   "property": "C58",
   "status": "partial",
   "theorems": [
    "distance_formula",
    "distance_is_not_negative",
    "distance_to_a_copy",
    "distance_underestimates",
    "distance_symmetric_partial",
    "older_connections_are_ignored",
    "distance_symmetric_refuted",
    "distance_is_the_neat_distance_refuted"
   ],
   "note": "Exact formula for all reachable populations, non-negative, 0 for copies. Refuted: symmetry and agreement with the NEAT distance; the disjoint connections of one genome are ignored (exactly how much is proved)."
  },
  {
   "property": "C59",
   "status": "partial",
   "theorems": [
    "evolutions_run",
    "init_makes_the_population",
    "champion_survives",
    "next_population_is_fresh",
    "population_size",
    "species_of_a_round",
    "species_start_empty",
    "representatives_are_apart",
    "stagnant_species_are_eliminated_refuted",
    "rescaled_fitness_in_0_1_refuted",
    "fractions_are_ignored",
    "cut_keeps_the_fittest_refuted"
   ],
   "note": "Proved for all evolutions: no undefined behaviour or overflow of the arrays, elitism, sizes, placement into species, representatives apart. Refuted: elimination of stagnant species, rescaling to [0,1], cutting to the fittest (fitness is truncated to int when sorted)."
  },
  {
   "property": "C60",
   "status": "partial",
   "theorems": [
    "init_aco_builds_the_space",
    "every_trail_is_a_network",
    "a_walk_sets_a_trail",
    "best_walk_succeeds",
    "roulette_takes_each_edge_with_its_share",
    "walks_succeed",
    "every_network_is_reached",
    "get_best_model_drops_the_weights_refuted"
   ],
   "note": "All of it proved for every reachable state, except the last sentence, which is refuted: get_best_model returns a network whose weights are all 0 but the first of each layer."
  },
  {
   "property": "C61",
   "status": "partial",
   "theorems": [
    "reward_rule",
    "reward_nodes_rule",
    "reward_all_rule",
    "reward_best_rule",
    "reward_best_nodes_rule",
    "refresh_rule",
    "remember_keeps_the_best",
    "best_never_lost",
    "stagnation_rule",
    "healthy_search_goes_on",
    "search_starts_healthy",
    "rounds_never_stop",
    "credit_behind_the_last_ant_refuted",
    "period_zero_refuted",
    "lower_bound_negative_refuted",
    "lower_bound_divides_by_zero_refuted",
    "subnodes_leave_a_mark_refuted",
    "best_reward_exceeds_the_bound_refuted"
   ],
   "note": "Proved over exact reals for every state that a program reaches. Refuted parts: set_pheromone_to_index writes behind the array for the index number_of_ants; a period of 0 divides by zero; update_pheromones_best does not keep the upper bound; update_pheromones_according_to_subnodes can leave a node marked; update_taus computes a negative lower bound with one candidate for each weight and divides by zero with two (fixed activations). Floating-point rounding is not modelled."
  },
  {
   "property": "C62",
   "status": "partial",
   "theorems": [
    "fitness_rule",
    "fitness_nodes_rule",
    "personal_rule",
    "the_best_is_never_forgotten",
    "candidates_stay",
    "global_rule",
    "leaders_stay",
    "step_runs_iff_leaders",
    "step_rule",
    "moves_are_bounded",
    "swarm_rounds_never_stop",
    "step_before_leaders_refuted",
    "global_by_depth_overruns_refuted",
    "global_by_depth_skips_refuted",
    "first_round_by_depth_refuted"
   ],
   "note": "Proved for every state that a program can reach, over exact reals, for the variant by nodes. set_best_global_node_fitness_pso (the variant by edges) is refuted: it works only when every layer has exactly 4*depth-3 weights, and a step before the leaders are set follows a null pointer. The schedule of inertia, c1, c2 is not modelled."
  },
  {
   "property": "C63",
   "status": "partial",
   "theorems": [
    "evaluation_ends",
    "tree_shaped_genomes_compute_their_network",
    "tree_shaped_networks_have_values",
    "skip_connections_are_evaluated_refuted",
    "layered_networks_are_evaluated_refuted",
    "nodes_without_inputs_are_evaluated_refuted"
   ],
   "note": "Every reachable genome is evaluated without undefined behaviour and in finitely many steps; tree-shaped genomes give the values of their network over the reals. That every loop-free genome does is refuted, for all weights, in three shapes. What genomes with loops compute is only shown in an example; rounding is not modelled."
  },
  {
   "property": "C64",
   "status": "partial",
   "theorems": [
    "saved_genomes_load",
    "complete_genomes_load",
    "loading_with_too_few_numbers",
    "array_genomes_load",
    "array_genomes_load_on_every_machine_refuted",
    "saved_populations_load",
    "loaded_populations_go_on",
    "genomes_of_a_population_can_be_saved_refuted",
    "loaded_tree_shaped_genomes_evaluate_the_same",
    "loaded_genomes_evaluate_the_same_refuted"
   ],
   "note": "Round trip of files (any self-inverse byte conversion), of arrays and populations (no conversion, as on little-endian machines), for every genome of every history. Refuted: arrays under a conversion that changes a list size, save_ith_genome for every valid index, same evaluation for genomes that are not tree-shaped. Not modelled: file names, I/O errors, int overflow, the search parameters and species of a population."
  },
  {
   "property": "C65",
   "status": "partial",
   "theorems": [
    "the_size_is_the_number_of_elements",
    "storing_writes_the_arrays_in_order",
    "loading_reads_the_arrays_in_order",
    "storing_and_loading_copies_a_network",
    "loading_and_storing_gives_the_vector_back",
    "the_index_of_a_score_is_the_end_of_its_layer",
    "a_network_without_its_arrays_cannot_be_copied",
    "switching_to_edge_popup_gives_scores_refuted",
    "switching_to_gradient_descent_gives_derivatives_refuted",
    "the_scores_of_a_recurrent_network_refuted",
    "the_derivatives_of_an_edge_popup_network_are_stale"
   ],
   "note": "Proved for every network whose arrays are allocated, all five kinds of vectors and both directions. Refuted where the flags announce arrays that are not allocated: copies without learning parameters, set_model_training_edge_popup, set_model_training_gd and recurrent parts without scores make the copies dereference NULL; derivatives of layers trained with edge-popup are gaps that keep stale values. Wrapping of int sizes is not modelled."
  },
  {
   "property": "C66",
   "status": "partial",
   "theorems": [
    "summing_scores_adds_them_place_by_place",
    "comparing_valid_scores_keeps_the_larger",
    "comparing_stores_the_best_score_refuted",
    "comparing_a_convolution_with_a_vector",
    "comparing_dense_layers_with_a_vector_refuted",
    "resetting_fills_the_scores",
    "averaging_adds_and_divides",
    "averaging_is_the_average_refuted",
    "dividing_skips_layers_without_scores_refuted",
    "the_worst_weights_are_reinitialised_refuted",
    "reinitialising_by_the_own_scores_refuted",
    "the_worst_percentage_is_reinitialised",
    "reinitialising_convolutions_refuted",
    "unused_weights_become_zero",
    "unused_weights_of_convolutions_refuted",
    "reinitialising_walks_down_from_the_best"
   ],
   "note": "Sum, comparison of valid scores, reset, renewal by percentage and zeroing of dense layers hold for every shape; comparison with NaN or too large scores, comparison of dense layers with a vector, averaging into nonzero scores, dividing with layers without scores, renewal by goodness and the convolutional renewal and zeroing are refuted as stated in the theorems. Reals stand for floats."
  },
  {
   "property": "C67",
   "status": "partial",
   "theorems": [
    "C67_reward_batch_is_distinct",
    "C67_each_entry_is_drawn_by_class_then_weight",
    "C67_beta_zero_refuted",
    "C67_importance_weight_of_an_entry",
    "C67_importance_weight_is_right_only_if_slot_is_rank",
    "C67_importance_weights_refuted",
    "C67_every_element_is_trained_once",
    "C67_discounts_partial",
    "C67_discounts_refuted",
    "C67_different_discounts_in_one_batch"
   ],
   "note": "Proved for beta > 0 and draws that are not 0 in exact reals: the batch and the distribution of its entries; every element is trained once with its own data except the discount. Refuted: beta = 0 is undefined behaviour; the importance weight is that of the rank equal to the slot number; with fewer threads than elements the discount is that of an element of the first group. Not modelled: the network training itself (other properties) and float rounding."
  },
  {
   "property": "C68",
   "status": "partial",
   "theorems": [
    "C68_check_ends",
    "C68_accepted_graphs_have_depths",
    "C68_needed_cycles_are_reported_partial",
    "C68_rings_are_reported",
    "C68_graded_graphs_are_accepted",
    "C68_acyclic_graphs_are_reported_refuted",
    "C68_cycles_are_accepted_refuted",
    "C68_self_loops_are_accepted_refuted",
    "C68_second_checks_report_accepted_graphs_refuted",
    "C68_constructed_handlers",
    "C68_constructor_refuses",
    "C68_constructed_handlers_cannot_be_checked_refuted"
   ],
   "note": "Termination, what acceptance means, and the cycles that are always reported are proved for all graphs; the equivalence with having no directed cycle is false in both directions (acyclic graph reported, cyclic graphs accepted), repeated checks are meaningless since marks are never reset, and the constructor leaves the number of outputs uninitialised."
  },
  {
   "property": "C69",
   "status": "partial",
   "theorems": [
    "C69_take_hands_out_the_first_free_name",
    "C69_give_back_frees_the_name",
    "C69_reset_frees_everything",
    "C69_no_name_is_held_twice",
    "C69_histories_are_defined",
    "C69_long_names_overflow_refuted",
    "C69_give_back_overflows_refuted",
    "C69_empty_lines_are_undefined_refuted",
    "C69_unterminated_last_line_is_never_handed_out_refuted",
    "C69_after_a_crash_only_free_names_are_handed_out",
    "C69_a_crash_can_lose_every_name_refuted",
    "C69_two_clients_get_the_same_name_refuted",
    "C69_a_name_given_back_can_stay_marked_refuted",
    "C69_second_mark_stays"
   ],
   "note": "Proved for all lists and all histories of one client at a time, for names shorter than the package size and 1024; false for longer names (overflow), empty or unterminated lines, crashes during a rewrite and clients at the same time, each proved for all lists."
  },
  {
   "property": "C70",
   "status": "partial",
   "theorems": [
    "ddpg_step_spec",
    "ddpg_init_ready",
    "ddpg_history",
    "ddpg_time_step_refuted",
    "ddpg_targets_ignore_the_future_refuted",
    "ddpg_step_differs_from_documented_refuted",
    "ddpg_hyper_parameters_swapped_refuted",
    "ddpg_one_feature_refuted"
   ],
   "note": "What a step computes and that any history of steps is defined is proved for all networks, with the targets the code really uses; the documented targets, time steps, assignment of hyper parameters and one-feature networks are refuted."
  },
  {
   "property": "C71",
   "status": "partial",
   "theorems": [
    "iq_train_spec",
    "iq_threads_do_not_matter",
    "iq_each_transition_once",
    "iq_saved",
    "iq_terminal_transitions",
    "iq_derivative_of_averaged_loss",
    "iq_derivative_terminal",
    "iq_derivatives_never_cleared_refuted",
    "iq_nth_update_gets_n_batches_refuted",
    "iq_documented_loss_refuted"
   ],
   "note": "Order, batching, threads, saving and terminal transitions are proved. Two parts of the statement are false of the code and refuted: the derivatives of earlier batches are never cleared, so an update gets the sum over all batches so far, and the derivative is that of a loss whose soft values are divided by the number of actions. Networks with normalization layers, floating point rounding and the pointer cast of the time step are not modelled."
  },
  {
   "property": "C72",
   "status": "partial",
   "theorems": [
    "vae_forward",
    "vae_backward",
    "vae_gradient_of_code_objective",
    "vae_rests_at_variance_one_half",
    "vae_divergence_refuted",
    "vae_free_null_refuted",
    "vae_free_leaks_the_latent_vector_refuted"
   ],
   "note": "The passes are proved exactly. False of the code and refuted: the error of the encoder is the gradient of twice the loss plus sum(mean^2 + std^2 - ln|std|), which is no combination of loss and divergence; freeing NULL is undefined and freeing leaks one block. Exact reals, stds that are not 0."
  },
  {
   "property": "C73",
   "status": "partial",
   "theorems": [
    "encoding_layout",
    "encoding_odd",
    "encoding_documented_refuted",
    "encoding_positions_alike_refuted",
    "documented_product",
    "encoding_product_refuted"
   ],
   "note": "Shape, range, formula and the exit for odd dimensions are proved; that the frequencies are the documented ones is refuted for every even dimension of at least 4 and at most 10^8, at position 1 and every even number from 2 on. Exact reals instead of double and float; the overflow of pow (from number 39 on, where the numbers become exactly 0 and 1) is not modelled."
  },
  {
   "property": "C74",
   "status": "proved",
   "theorems": [
    "uniform_range",
    "signed_range",
    "signed_symmetric",
    "range_range",
    "drand_range",
    "normal_range",
    "normal_bound_reached",
    "initial_values_range",
    "initial_values_scale",
    "beta_range"
   ],
   "note": "Exact reals instead of float. The constant in signed_kaiming_constant is uniform between plus and minus sqrt(2/n), not one of two constants (initial_values_scale). random_beta leaves out the rejection step, so its distribution is not modelled as a beta distribution; only its range is claimed."
  },
  {
   "property": "C75",
   "status": "partial",
   "theorems": [
    "sampling_refuted",
    "every_action_has_numbers",
    "sampling_changes_scores",
    "sampling_one_action_refuted",
    "policy_error_is_gradient",
    "reward_loss_of_action",
    "entropy_sign_refuted",
    "policy_error_undefined_refuted",
    "training_passage_ok",
    "clipping_value_refuted",
    "get_policies_one",
    "get_policies_one_refuted",
    "get_policies_threads_refuted"
   ],
   "note": "Proved: the error is the exact gradient and a passage adds it for every state once, for any number of threads (passes, clipping and update are parameters; the array error is 0 before, as the reset functions leave it; the state of the networks that get_policies fails to reset is not modelled). Refuted: sampling, sign of the entropy, clipping value, get_policies with threads. Exact reals; with floats a probability can round to 1, then the sort can move the least probable action first."
  },
  {
   "property": "C76",
   "status": "partial",
   "theorems": [
    "C76_factorised_noise",
    "C76_signed_root_unique",
    "C76_gamma_is_a_scaled_normal",
    "C76_dirichlet_sums_to_one_partial",
    "C76_dirichlet_alpha_refuted",
    "C76_dirichlet_negative_refuted",
    "C76_dirichlet_nan_refuted",
    "C76_decoded_value",
    "C76_decoded_value_refuted",
    "C76_mean",
    "C76_std_refuted"
   ],
   "note": "Noise, what a gamma value is, sum of the sample, decoded value and mean are proved. Refuted: the Dirichlet sample does not depend on the concentration, has negative entries for some draws of every size from 3 on, and is not a number for others; the decoded value is off by (n-1) times the offset; std returns the variance. Exact reals; the distribution of the draws is not modelled."
  },
  {
   "property": "C77",
   "status": "partial",
   "theorems": [
    "C77_construction",
    "C77_copy",
    "C77_copied_norm_mode_refuted",
    "C77_paste",
    "C77_paste_other_size",
    "C77_paste_groups_refuted",
    "C77_paste_w",
    "C77_paste_w_size_refuted",
    "C77_reset",
    "C77_reset_scores_refuted",
    "C77_reset_except_derivatives",
    "C77_reset_without_dwdb_refuted",
    "C77_switch_to_popup_refuted",
    "C77_switch_to_gd_refuted",
    "C77_switch_norm_refuted",
    "C77_feed_forward_only",
    "C77_feed_forward_only_reset_refuted",
    "C77_inference_train"
   ],
   "note": "Construction, copy, paste, the resets, feed-forward-only layers and inference/train switching proved for every admissible configuration and every state of the arrays. The parts that are false of the code (group overrun, unchecked sizes, forgotten mode, score derivatives, without_dwdb, mode switches) are refuted in general. Not modelled: without_learning_parameters variants, reset_fcl_for_edge_popup, freeing."
  },
  {
   "property": "C78",
   "status": "partial",
   "theorems": [
    "C78_sort_keeps_the_indices",
    "C78_probability_refuted",
    "C78_two_sorted",
    "C78_three_not_sorted_refuted",
    "C78_merge",
    "C78_merge_reversed_refuted"
   ],
   "note": "All networks end with the same scores and indices, every layer is ranked completely, for every list of layers. The order of the ranking is refuted: for two connections it is the reverse of the summed scores, for three the sort orders nothing, and the compared value is not the probability. Real arithmetic; the deviations that are divided by must not be zero; erf is any function with the stated properties; the 2-connection reversal is proved for the merge by scores."
  },
  {
   "property": "C79",
   "status": "partial",
   "theorems": [
    "C79_all_layers",
    "C79_within_layers",
    "C79_equal_scores_refuted",
    "C79_layer_without_scores_refuted",
    "C79_large_scores_refuted"
   ],
   "note": "Proved for all models whose layers all have scores, not all equal, between the two initial values of the search. Outside these hypotheses the property is refuted: equal scores (0/0), layers without scores (NULL read), scores above 9999999. Real arithmetic; a division by zero is an error of the model."
  },
  {
   "property": "C80",
   "status": "partial",
   "theorems": [
    "C80_split",
    "C80_round_trip",
    "C80_wide_keys_refuted",
    "C80_narrow_keys_refuted",
    "C80_forward_narrow_keys_refuted"
   ],
   "note": "Proved for equal widths of keys and values, refuted for all others (with at least two tokens, or two blocks for wider keys; the overrun of the forward pass is C31_reshape_out_of_bounds_refuted). The model covers the loop that takes the error apart; the loop that calls self_attention_bp per head is not modelled (self_attention_bp itself is C31)."
  }
 ]
}