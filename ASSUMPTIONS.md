# Assumptions of every theorem in MANIFEST.json

Generated from `Print Assumptions`. All axioms listed belong to the Coq standard library.

## Closed under the global context (no axioms) — 215 theorems

C01_shuffle_permutes, C01_every_permutation_reachable, C01_every_permutation_reachable_refuted, C02_pairs_stay_aligned, C02_float_int_vectors_partial, C02_float_int_int_vectors_partial, C02_int_labels_refuted, C02_int_int_labels_refuted, C03_partial_shuffle_selects_without_replacement, C03_any_prefix_reachable, C03_every_selection_refuted, C03_length_zero_or_too_long_is_undefined, C04_quick_sort_sorts, C04_quick_sort_whole_array, C05_sort_keeps_all_indices_partial, C05_sort_refuted_positions, C05_sort_refuted_truncation, C06_argmax_first_maximum, C06_argmax_empty, C07_sift_up_restores_heap, C07_sift_down_restores_heap, C07_remove_keeps_heap, C07_remove_outside_is_noop, C08_history_keeps_buffer_consistent, C08_new_transition_ranks_first, C08_stored_error_changes_one_slot, C09_single_position_batch_partial, C09_priority_update_refuted, C10_value_is_child, C13_window_is_one_episode, C15_seen_before, C15_mixed_lengths_answer_prefix, C15_mixed_lengths_refuted, C16_confusion_counts, C16_outcomes_partition, C16_nan_refuted, C18_itoa_writes_decimal, C18_text_determines_number, C18_int_min_refuted, C19_reverse_ptr_partial, C19_reverse_ptr_involution_partial, C19_little_endian_identity, C19_big_endian_conversion_refuted, C19_big_endian_out_of_bounds_refuted, C19_intended_loop, C20_clip_vector, C20_copy_clipped_vector, C20_clip_idempotent, C20_bad_bounds_exit, C30_window_of_one_is_undefined, C37_ff, C37_bp, C37_rmodel_ff, C37_rmodel_bp, C37_no_threads, C37_genomes, C37_genomes_with_indices, C37_dqn_refuted, C37_dqn_results_refuted, C39_float_refuted, C40_floats_partial, C40_floats_call_partial, C40_nan_refuted, C41_normalization_layers, C41_convolutional_layers, C41_residual_layers, C41_l2_layers, C41_recurrent_layers, C41_fully_connected_layers_partial, C41_fully_connected_k_percentage_refuted, C41_only_dropout_refuted, C41_freeze_biases_refuted, C41_models_partial, C41_models, C41_load_model_partial, C41_one_after_the_other, C41_lists, C41_second_save_refuted, C41_given_directory_refuted, C41_unsorted_residual_refuted, C41_recurrent_networks, C41_recurrent_mixed_edge_popup_refuted, C41_encoders_partial, C41_decoders_partial, C41_transformers_partial, C41_transformers_refuted, C41_dueling_networks_partial, C41_dueling_given_directory_refuted, C41_efficientzero_partial, C41_autoencoders_partial, C41_autoencoders_one_file_refuted, C41_vectors_refuted, C41_vectors_without_content, C43_counts_consistent, C43_visit_counts_its_path, C43_actions_counted, C43_visits_defined, C43_parent_value_refuted, C43_root_count_refuted, C43_first_choice, histories_are_well_formed, same_number_same_connection, connections_join_the_right_nodes, split_splits, same_split_same_numbers, connect_connects, remove_disables_one, activate_enables_one, activate_many_enables, weights_change_once, copy_copies, adjust_sorts, crossover_mixes, free_frees_once, bias_flags_are_initialised_refuted, genomes_stay_feed_forward_refuted, csv_row_is_read, csv_row_cells, csv_table_is_read, csv_files_are_read, csv_missing_file, chars_are_read, char_table_is_read, char_files_are_read, labelled_examples_are_read, csv_unterminated_number_refuted, csv_long_number_refuted, csv_too_many_numbers_refuted, chars_final_newline_refuted, labelled_lines_refuted, label_out_of_range_refuted, label_missing_file_refuted, csv_number_before_newline_is_dropped_refuted, C50_fcl, C50_conv, C50_conv_once, C50_lstm, C50_lstm_nesterov_adamod, C50_lstm_edge_popup_refuted, description_is_parsed, missing_description, short_line_reuses_refuted, documented_header_refuted, missing_newline_refuted, init_aco_builds_the_space, every_trail_is_a_network, a_walk_sets_a_trail, best_walk_succeeds, get_best_model_drops_the_weights_refuted, evaluation_ends, saved_genomes_load, complete_genomes_load, loading_with_too_few_numbers, array_genomes_load, array_genomes_load_on_every_machine_refuted, saved_populations_load, loaded_populations_go_on, genomes_of_a_population_can_be_saved_refuted, the_size_is_the_number_of_elements, storing_writes_the_arrays_in_order, loading_reads_the_arrays_in_order, storing_and_loading_copies_a_network, loading_and_storing_gives_the_vector_back, the_index_of_a_score_is_the_end_of_its_layer, a_network_without_its_arrays_cannot_be_copied, switching_to_edge_popup_gives_scores_refuted, switching_to_gradient_descent_gives_derivatives_refuted, the_scores_of_a_recurrent_network_refuted, the_derivatives_of_an_edge_popup_network_are_stale, summing_scores_adds_them_place_by_place, comparing_a_convolution_with_a_vector, comparing_dense_layers_with_a_vector_refuted, resetting_fills_the_scores, dividing_skips_layers_without_scores_refuted, the_worst_weights_are_reinitialised_refuted, reinitialising_by_the_own_scores_refuted, the_worst_percentage_is_reinitialised, reinitialising_convolutions_refuted, unused_weights_become_zero, unused_weights_of_convolutions_refuted, reinitialising_walks_down_from_the_best, C67_every_element_is_trained_once, C67_discounts_partial, C67_discounts_refuted, C68_check_ends, C68_accepted_graphs_have_depths, C68_needed_cycles_are_reported_partial, C68_rings_are_reported, C68_graded_graphs_are_accepted, C68_acyclic_graphs_are_reported_refuted, C68_cycles_are_accepted_refuted, C68_self_loops_are_accepted_refuted, C68_second_checks_report_accepted_graphs_refuted, C68_constructed_handlers, C68_constructor_refuses, C68_constructed_handlers_cannot_be_checked_refuted, C69_take_hands_out_the_first_free_name, C69_give_back_frees_the_name, C69_reset_frees_everything, C69_no_name_is_held_twice, C69_histories_are_defined, C69_long_names_overflow_refuted, C69_give_back_overflows_refuted, C69_empty_lines_are_undefined_refuted, C69_unterminated_last_line_is_never_handed_out_refuted, C69_after_a_crash_only_free_names_are_handed_out, C69_a_crash_can_lose_every_name_refuted, C69_two_clients_get_the_same_name_refuted, C69_a_name_given_back_can_stay_marked_refuted, C69_second_mark_stays, ddpg_init_ready, iq_each_transition_once, vae_free_null_refuted, vae_free_leaks_the_latent_vector_refuted, C77_paste_other_size

## `ClassicalDedekindReals.sig_forall_dec` — 29 theorems

C22_array_versions, C23_array_versions, C31_heads_are_interleaved, C31_reshape_out_of_bounds_refuted, C35_pair_partial, C35_noisy_refuted, C35_layer_norm_refuted, C35_group_gamma_refuted, C35_residual_scores_refuted, C36_race_free, C37_loss_empty_refuted, C45_in_place, C45_scale_and_shift, C51_load_loses_the_vector, C51_copy, C52_reset, tree_shaped_networks_have_values, get_policies_one, get_policies_one_refuted, get_policies_threads_refuted, C77_paste, C77_paste_groups_refuted, C77_paste_w, C77_paste_w_size_refuted, C80_split, C80_round_trip, C80_wide_keys_refuted, C80_narrow_keys_refuted, C80_forward_narrow_keys_refuted

## `ClassicalDedekindReals.sig_forall_dec`, `FunctionalExtensionality.functional_extensionality_dep` — 151 theorems

C10_tree_stores_subtree_sums, C10_update_changes_only_ancestors, C11_weighted_sample_is_proportional, C11_batch_has_no_repetition, C11_draw_zero_refuted, C13_n_step_return, C16_metrics, C17_applies_from_threshold_on, C17_constant_decay_bound_partial, C17_time_based_partial, C17_minimum_refuted, C17_schedule_refuted, C22_relu_derivative, C23_cross_entropy_saturated, C23_contrastive_refuted, C24_forward, C24_forward_without_bias, C24_forward_cleared, C24_backward, C24_backward_without_bias, C24_noisy_forward, C24_noisy_input_error_refuted, C25_forward, C25_depends_only_on_selected, C25_backward_gd, C26_forward, C26_backward, C26_backward_without_bias, C27_forward_unpadded, C27_forward_padded, C27_adjoint, C28_max_forward_partial, C28_max_forward_refuted, C28_max_backward_partial, C28_max_backward_refuted, C28_average_forward, C28_average_backward_partial, C28_average_backward_refuted, C33_nesterov, C33_nesterov_no_momentum, C33_adam_moment_in_range, C33_radam_warm_up, C35_models_partial, C35_rmodels, C35_vae_partial, C35_group_beta_refuted, C36_models_partial, C36_dqns_partial, C36_group_beta_refuted, C37_loss_partial, C37_loss_refuted, C38_quantiles, C38_q_functions, C38_q_functions_qr, C38_advantage_error_actual, C39_projection, C39_single_value_refuted, C40_reals, C40_exact, C42_fcl, C42_cl, C42_lstm_partial, C42_l2, C42_model, C42_rmodel_partial, C42_dqn, C42_vae, C42_encoder, C42_decoder, C42_transformer, C42_model_tracks, C42_rmodel_tracks_partial, C42_dqn_tracks, C42_vae_tracks, C42_transformer_tracks, C42_lstm_refuted, C42_cl_moments_refuted, C45_mat_mul, C45_elementwise, C46_fcl, C46_lstm, C46_conv, C46_conv_edge_popup_refuted, C46_update_model_fcl, C47_mask, C47_mask_accumulates_without_reset, C47_training_output, C47_masked_units_contribute_nothing, C47_mode_switch, C47_test_scale_is_the_expectation, C49_scores_normalized, C50_group_norm_refuted, C51_two_inputs, C51_concatenation, C51_concatenation_backward, C51_configuration_overwritten_refuted, C55_plain_last_refuted, C55_plain_refuted, C56_ends_partial, C56_decay_refuted, C56_reset_refuted, distance_formula, distance_is_not_negative, distance_to_a_copy, distance_underestimates, distance_symmetric_partial, older_connections_are_ignored, distance_symmetric_refuted, distance_is_the_neat_distance_refuted, evolutions_run, init_makes_the_population, champion_survives, next_population_is_fresh, population_size, species_of_a_round, species_start_empty, representatives_are_apart, stagnant_species_are_eliminated_refuted, rescaled_fitness_in_0_1_refuted, fractions_are_ignored, cut_keeps_the_fittest_refuted, comparing_valid_scores_keeps_the_larger, comparing_stores_the_best_score_refuted, averaging_adds_and_divides, averaging_is_the_average_refuted, C67_different_discounts_in_one_batch, ddpg_step_spec, ddpg_history, ddpg_time_step_refuted, ddpg_targets_ignore_the_future_refuted, ddpg_step_differs_from_documented_refuted, ddpg_hyper_parameters_swapped_refuted, ddpg_one_feature_refuted, vae_forward, vae_backward, vae_rests_at_variance_one_half, uniform_range, signed_range, signed_symmetric, range_range, drand_range, C76_signed_root_unique, C76_decoded_value, C76_decoded_value_refuted, C76_mean, C77_inference_train, C79_all_layers, C79_within_layers, C79_equal_scores_refuted, C79_layer_without_scores_refuted, C79_large_scores_refuted

## `ClassicalDedekindReals.sig_forall_dec`, `ClassicalDedekindReals.sig_not_dec`, `FunctionalExtensionality.functional_extensionality_dep` — 89 theorems

C14_range, C14_initial_value_refuted, C17_cosine_range, C21_shift_invariant, C21_derivative_softmax_is_the_gradient, C21_masked_derivative_is_the_gradient, C22_sigmoid_is_logistic, C22_tanhh_is_tanh, C29_cell_equations, C30_input_error_computed, C31_attention, C31_masking_is_causal, C31_backward_is_the_gradient, C31_token_major_values_leak_refuted, C32_batch_norm, C32_batch_norm_parameter_gradient, C32_dataset_statistics_computed, C32_dataset_statistics_refuted, C32_scaled_l2, C32_layer_norm, C32_layer_norm_one_group_ignores_input, C32_group_norm_one_group, C32_group_norm_leaves_last_entry, C33_adam, C33_adam_zero_gradient, C33_adam_constant_gradient, C33_adam_step_bounded, C33_adam_scale_invariant, C33_adamod, C33_radam, C33_radam_t0_skips_warm_up, C34_clipping, C34_dqn, C34_vae, C34_encoder, C34_decoder, C34_transformer, C34_general_models_partial, C34_lstm_scores_partial, C34_general_enlarges_refuted, C34_general_heads_refuted, C34_layer_norm_refuted, C34_noisy_refuted, C34_lstm_reads_past_refuted, C34_lstm_biases_refuted, C38_aggregation, C38_needs_reset, C51_forward, C51_dropout_forward, C51_dropout_test_scale, C51_dropout_backward_refuted, C51_get_max, C51_resize, C51_save_load_refuted, C52_forward, C52_test_mode_last_layer_refuted, C52_test_mode_linear_layer_refuted, C52_normalization_gradient_dropped_refuted, C53_model_partial, C53_rmodel_partial, C53_large_gradients_untouched_refuted, C53_small_gradients_shrunk_refuted, C53_conv_scores_refuted, encoding_layout, encoding_odd, sampling_refuted, every_action_has_numbers, sampling_changes_scores, sampling_one_action_refuted, C76_factorised_noise, C76_std_refuted, C77_construction, C77_copy, C77_copied_norm_mode_refuted, C77_reset, C77_reset_scores_refuted, C77_reset_except_derivatives, C77_reset_without_dwdb_refuted, C77_switch_to_popup_refuted, C77_switch_to_gd_refuted, C77_switch_norm_refuted, C77_feed_forward_only, C77_feed_forward_only_reset_refuted, C78_sort_keeps_the_indices, C78_probability_refuted, C78_two_sorted, C78_three_not_sorted_refuted, C78_merge, C78_merge_reversed_refuted

## `ClassicalDedekindReals.sig_forall_dec`, `ClassicalDedekindReals.sig_not_dec`, `Classical_Prop.classic`, `FunctionalExtensionality.functional_extensionality_dep` — 153 theorems

C12_reward_classes_stay_consistent, C12_lengths_add_up, C12_nan_reward_refuted, C14_non_increasing, C14_reaches_minimum, C17_cosine_maximum_refuted, C21_softmax_is_a_distribution, C21_masked_softmax_is_a_distribution, C22_sigmoid_derivative, C22_sigmoid_derivative_from_output, C22_tanh_derivative, C22_leaky_relu_derivative, C22_elu_derivative, C22_kinks_use_left_derivative, C22_ranges, C22_monotone, C23_mse, C23_cross_entropy, C23_cross_entropy_with_softmax, C23_cross_entropy_with_softmax_needs_distribution, C23_huber_partial, C23_huber_refuted, C23_modified_huber, C23_focal, C23_kl_divergence, C23_entropy, C23_contrastive_partial, C23_total_variation_refuted, C24_noisy_backward_partial, C24_noisy_backward_refuted, C25_backward, C27_backward, C29_states_bounded, C30_cell, C30_back_propagation_through_time, C30_input_gradient, C30_input_error_refuted, C31_channel_major_keys_leak_refuted, C32_batch_norm_input_error_refuted, C32_scaled_l2_gradient, C32_local_response, C32_local_response_backward_refuted, C33_diff_grad, C38_value_error, C38_advantage_error_refuted, C38_qr_value_error, C38_qr_advantage_error_partial, C38_qr_advantage_error_refuted, C39_loss, C39_priority, C40_state_bounded, C43_values_bounded, C43_root_choice_refuted, C43_other_actions_refuted, C43_normalisation_refuted, C43_policy_is_distribution, C43_policy_defined, C43_policy_overflow_refuted, C43_policy_frequencies, C43_policy_constant_refuted, C43_policy_unvisited_refuted, C43_reading_policy_refuted, C43_root_value_bounded, C51_backward_is_the_gradient, C51_softmax_backward, C51_softmax_second_step_refuted, C51_two_inputs_backward, C52_backward_is_the_gradient, C52_training_step, C52_huber_step_ascends_refuted, C54_refuted, C55_opt, C55_with_error, C55_variants_refuted, roulette_takes_each_edge_with_its_share, walks_succeed, every_network_is_reached, reward_rule, reward_nodes_rule, reward_all_rule, reward_best_rule, reward_best_nodes_rule, refresh_rule, remember_keeps_the_best, best_never_lost, stagnation_rule, healthy_search_goes_on, search_starts_healthy, rounds_never_stop, credit_behind_the_last_ant_refuted, period_zero_refuted, lower_bound_negative_refuted, lower_bound_divides_by_zero_refuted, subnodes_leave_a_mark_refuted, best_reward_exceeds_the_bound_refuted, fitness_rule, fitness_nodes_rule, personal_rule, the_best_is_never_forgotten, candidates_stay, global_rule, leaders_stay, step_runs_iff_leaders, step_rule, moves_are_bounded, swarm_rounds_never_stop, step_before_leaders_refuted, global_by_depth_overruns_refuted, global_by_depth_skips_refuted, first_round_by_depth_refuted, tree_shaped_genomes_compute_their_network, skip_connections_are_evaluated_refuted, layered_networks_are_evaluated_refuted, nodes_without_inputs_are_evaluated_refuted, loaded_tree_shaped_genomes_evaluate_the_same, loaded_genomes_evaluate_the_same_refuted, C67_reward_batch_is_distinct, C67_each_entry_is_drawn_by_class_then_weight, C67_beta_zero_refuted, C67_importance_weight_of_an_entry, C67_importance_weight_is_right_only_if_slot_is_rank, C67_importance_weights_refuted, iq_train_spec, iq_threads_do_not_matter, iq_saved, iq_terminal_transitions, iq_derivative_of_averaged_loss, iq_derivative_terminal, iq_derivatives_never_cleared_refuted, iq_nth_update_gets_n_batches_refuted, iq_documented_loss_refuted, vae_gradient_of_code_objective, vae_divergence_refuted, encoding_documented_refuted, encoding_positions_alike_refuted, documented_product, encoding_product_refuted, normal_range, normal_bound_reached, initial_values_range, initial_values_scale, beta_range, policy_error_is_gradient, reward_loss_of_action, entropy_sign_refuted, policy_error_undefined_refuted, training_passage_ok, clipping_value_refuted, C76_gamma_is_a_scaled_normal, C76_dirichlet_sums_to_one_partial, C76_dirichlet_alpha_refuted, C76_dirichlet_negative_refuted, C76_dirichlet_nan_refuted

