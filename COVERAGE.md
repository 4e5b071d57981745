# Which functions of /repo/src the model covers

Generated by matching the file:line citations in the `*_Model*.v` files against the C function definitions. A function is listed as modelled when a definition cites lines inside it; the comment of that definition states the simplifications.

## aco_building.c: 8 of 12

Modelled: aco_create_activations_node (Aco_Model); aco_attach_activations_to_fcl (Aco_Model); aco_attach_fcl_to_params (Aco_Model); aco_build_layer_param_nodes_complete2 (Aco_Model); get_nodes_to_attach (Aco_Model); aco_add_output_nodes_to_node (Aco_Model); attach_params_to_root (Aco_Model); attach_layer (Aco_Model).

Not modelled: aco_create_activation_node, aco_build_layer_param_nodes, aco_build_layer_param_nodes_complete, attach_params_to_root.

## aco_init.c: 4 of 16

Modelled: init_aco_edge (Aco_Model); init_aco_node (Aco_Model); add_aco_edge (Aco_Model); node_state (Aco_Model).

Not modelled: init_params, copy_param, init_activation, init_fcl_func, free_params, free_fcl_func, free_aco_node, reset_fcl_func, reset_aco_edge, reset_aco_node, init_aco_tracker, reset_aco_tracker.

## aco_iterate.c: 13 of 21

Modelled: aco_tracker_build_model_complete (Aco_Model); aco_tracker_build_model_complete2 (Aco_Model); aco_tracker_next_weithout_setting_flags (Aco_Model); aco_tracker_next_weithout_setting_flags_according_to_nodes (Aco_Model); aco_tracker_next_weithout_setting_flags_according_to_best (Aco_Model); aco_tracker_next_by_index (Aco_Model); update_aco_tracker_next_according_to_path (Aco2_Model); update_aco_tracker_next_according_to_path_according_to_nodes (Aco2_Model); update_aco_tracker_next_according_to_path_according_to_subnodes (Aco2_Model); update_aco_tracker_next_according_to_path_no_min_max (Aco2_Model); aco_tracker_best_next (Aco_Model); get_all_nodes_and_edges (Aco_Model); compute_all_nodes_edges (Aco_Model).

Not modelled: aco_tracker_execute_operation, aco_tracker_build_model, aco_tracker_next, aco_tracker_best_next_set_flag, update_aco_tracker_next_according_to_path_best, sign_best, build_model_from_tracker, reset_flags.

## aco_process.c: 33 of 59

Modelled: init_aco (Aco_Model); update_best_trail (Aco2_Model); set_pheromone_best_trail (Aco2_Model); update_taus (Aco2_Model); set_pheromone_to_index (Aco2_Model); update_pheromones (Aco2_Model); update_pheromones_according_to_nodes (Aco2_Model); update_pheromones_according_to_subnodes (Aco2_Model); update_pheromones_no_min_max (Aco2_Model); update_pheromones_best (Aco2_Model); update_pheromones_best_according_to_nodes (Aco2_Model); update_pheromones_best_according_to_subnodes (Aco2_Model); update_graph_pheromone_from_trail (Aco2_Model); update_graph_pheromone_from_trail_no_min_max (Aco2_Model); reset_flags_from_aco_struct (Aco2_Model); get_model_according_to_path (Aco_Model); get_best_model (Aco_Model); build_path_from_ant_index (Aco_Model); build_path_from_ant_index_according_to_nodes (Aco_Model); build_path_from_ant_index_according_to_subnodes (Aco_Model); build_best_path_from_ant_index_according_to_subnodes (Aco_Model); get_stagnation (Aco2_Model); get_stagnation_according_to_nodes (Aco2_Model); recompute_pheromones (Aco2_Model); recompute_pheromones_according_to_nodes (Aco2_Model); recompute_pheromones_according_to_stagnation (Aco2_Model); recompute_pheromones_according_to_stagnation_according_to_nodes (Aco2_Model); calculate_pso_function_per_node (Aco2_Model); calculate_pso_function_per_node_according_to_nodes (Aco2_Model); set_best_personal_node_fitness_pso (Aco2_Model); set_best_global_node_fitness_pso (Aco2_Model); set_best_global_node_fitness_pso_according_to_nodes (Aco2_Model); update_pso_nodes (Aco2_Model).

Not modelled: set_x_params, free_aco_struct, update_path_with_pheromone, update_path_with_pheromone_according_to_nodes, update_path_with_pheromone_according_to_subnodes, update_path_with_pheromone_no_min_max, update_graph_pheromone_from_trail_according_to_nodes, update_graph_pheromone_from_trail_according_to_subnodes, get_model_according_to_path_debug, get_stagnation_according_to_subnodes, recompute_pheromones_according_to_subnodes, recompute_pheromones_according_to_stagnation_according_to_subnodes, aco_weights_are_different, get_width_according_to_node_index, update_woa_nodes, update_fa_nodes, update_gsa_nodes, set_iteration_index_to_value, update_psogsa_nodes, get_lambda_pso, get_lvalue_pso, update_gsa_params, update_fa_params, update_pso_params, update_woa_params, update_psogsa_params.

## attention.c: 4 of 4

Modelled: self_attention_ff (Attn_Model); self_attention_bp (Attn_Model); multi_head_attention_ff (Attn_Model); multi_head_attention_bp (Heads_Model).

## batch_norm_layers.c: 9 of 19

Modelled: batch_normalization (Life_Model, Save_Model); save_bn (Save_Model); load_bn (Save_Model); copy_bn (Life_Model); reset_bn (Life_Model, Norm_Model); reset_bn_except_partial_derivatives (Life_Model); paste_bn (Life_Model, Save_Model); paste_w_bn (Life_Model); slow_paste_bn (Soft_Model).

Not modelled: batch_normalization_without_arrays, batch_normalization_without_learning_parameters, make_the_bn_only_for_ff, free_the_bn_only_for_ff, free_batch_normalization, load_bn_only_for_ff, copy_bn_without_learning_parameters, size_of_bn, size_of_bn_without_learning_parameters, paste_bn_without_learning_parameters.

## clipping_gradient.c: 27 of 31

Modelled: general_clipping_gradient (Net_Model); clipping_gradient (Net_Model); dueling_categorical_dqn_clipping_gradient (Net_Model); sum_all_quadratic_derivative_weights_m (Net_Model); clipping_gradient_rmodel (Net_Model); clipping_gradient_transf_encoder (Net_Model); clipping_gradient_transf_decoder (Net_Model); clipping_gradient_transf (Net_Model); clipping_gradient_vae_model (Net_Model); clip_rls (Net_Model); clip_cls (Net_Model); clip_fcls (Net_Model); clip_lstms (Net_Model); clip_bns (Net_Model); clip_scaled_l2 (Net_Model); sum_all_quadratic_derivative_weights_rls (Net_Model); sum_all_quadratic_derivative_weights_cls (Net_Model); sum_all_quadratic_derivative_weights_scaled_l2_norm (Net_Model); sum_all_quadratic_derivative_weights_fcls (Net_Model); sum_all_quadratic_derivative_weights_lstms (Net_Model); sum_all_quadratic_derivative_weights_bns (Net_Model); adaptive_gradient_clipping_lstm (Net_Model); adaptive_gradient_clipping_fcl (Net_Model); adaptive_gradient_clipping_cl (Net_Model); adaptive_gradient_clipping_rl (Net_Model); adaptive_gradient_clipping_model (Net_Model); adaptive_gradient_clipping_rmodel (Net_Model).

Not modelled: adaptive_gradient_clipping_dueling_categorical_dqn, adaptive_gradient_clipping_encoder_transformer, adaptive_gradient_clipping_decoder_transformer, adaptive_gradient_clipping_transformer.

## convolutional.c: 8 of 16

Modelled: convolutional_feed_forward (Conv_Model); convolutional_back_prop (Conv_Model); max_pooling_feed_forward (Pool_Model); max_pooling_back_prop (Pool_Model); average_pooling_feed_forward (Pool_Model); average_pooling_back_prop (Pool_Model); transposed_convolutional_feed_forward (Conv_Model); transposed_convolutional_back_prop (Conv_Model).

Not modelled: convolutional_feed_forward_edge_popup, convolutional_back_prop_edge_popup, convolutional_back_prop_edge_popup_ff_gd_bp, convolutional_back_prop_edge_popup_for_input, transposed_convolutional_feed_forward_edge_popup, transposed_convolutional_back_prop_edge_popup, transposed_convolutional_back_prop_edge_popup_ff_gd_bp, transposed_convolutional_back_prop_edge_popup_for_input.

## convolutional_layers.c: 44 of 70

Modelled: convolutional (Flat_Model, Save_Model); convolutional_without_learning_parameters (Flat_Model); exists_d_kernels_cl (Flat_Model, Soft_Model); exists_d_biases_cl (Flat_Model, Soft_Model); exists_kernels_cl (Flat_Model, Soft_Model); exists_biases_cl (Flat_Model, Soft_Model); exists_pre_activation_cl (Flat_Model, Soft_Model); exists_post_activation_cl (Flat_Model, Soft_Model); exists_normalization_cl (Flat_Model, Soft_Model); exists_pooling (Flat_Model, Soft_Model); exists_edge_popup_stuff_cl (Flat_Model, Save_Model, Soft_Model); save_cl (Save_Model); copy_cl_params (Save_Model); load_cl (Save_Model); slow_paste_cl (Soft_Model); get_array_size_params_cl (Flat_Model); get_array_size_weights_cl (Flat_Model); get_array_size_scores_cl (Flat_Model); memcopy_vector_to_params_cl (Flat_Model); memcopy_params_to_vector_cl (Flat_Model); memcopy_vector_to_weights_cl (Flat_Model); memcopy_weights_to_vector_cl (Flat_Model); memcopy_scores_to_vector_cl (Flat_Model); memcopy_indices_to_vector_cl (Flat_Model); memcopy_vector_to_scores_cl (Flat_Model); assign_vector_to_scores_cl (Flat_Model); memcopy_vector_to_indices_cl (Flat_Model); memcopy_vector_to_indices_cl2 (Flat_Model); memcopy_vector_to_derivative_params_cl (Flat_Model); memcopy_derivative_params_to_vector_cl (Flat_Model); set_convolutional_biases_to_zero (Scr_Model); set_convolutional_unused_weights_to_zero (Scr_Model); sum_score_cl (Scr_Model); compare_score_cl (Scr_Model); compare_score_cl_with_vector (Scr_Model); dividing_score_cl (Scr_Model); reset_score_cl (Scr_Model); reinitialize_weights_according_to_scores_cl (Scr_Model); reinitialize_weights_according_to_scores_cl_only_percentage (Scr_Model); reinitialize_weights_according_to_scores_and_inner_info_cl (Scr_Model); reinitialize_w_cl (Scr_Model); reset_edge_popup_d_cl (Scr_Model); set_low_score_cl (Scr_Model); make_the_cl_only_for_ff (Flat_Model).

Not modelled: convolutional_without_arrays, exists_edge_popup_stuff_with_only_training_mode_cl, exists_bp_handler_arrays, free_convolutional, free_convolutional_without_arrays, free_convolutional_without_learning_parameters, free_scores_cl, free_indices_cl, set_null_scores_cl, set_null_indices_cl, copy_cl, copy_cl_without_learning_parameters, reset_cl, reset_cl_only_for_ff, reset_cl_without_learning_parameters, reset_cl_except_partial_derivatives, reset_cl_without_dwdb, reset_cl_without_dwdb_without_learning_parameters, reset_cl_for_edge_popup, size_of_cls, size_of_cls_without_learning_parameters, count_weights_cl, paste_cl, paste_cl_without_learning_parameters, paste_w_cl, set_feed_forward_flag.

## dictionary.c: 1 of 2

Modelled: check_int_array (Dict_Model).

Not modelled: free_my_struct.

## drl.c: 2 of 3

Modelled: init_ddpg (Ddpg_Model); ddpg_train (Ddpg_Model).

Not modelled: free_ddpg.

## dueling_categorical_dqn.c: 40 of 98

Modelled: dueling_categorical_dqn_init (Duel_Model, Save2_Model); save_dueling_categorical_dqn (Save2_Model); load_dueling_categorical_dqn (Save2_Model); save_dueling_categorical_dqn_given_directory (Save2_Model); set_is_qr (Save2_Model); free_dueling_categorical_dqn (Save2_Model); free_dueling_categorical_dqn_without_learning_parameters (Save2_Model); reset_dueling_categorical_dqn (Duel_Model); reset_dueling_categorical_dqn_without_learning_parameters (Duel_Model); slow_paste_dueling_categorical_dqn (Soft_Model); get_array_size_params_dueling_categorical_dqn (Flat_Model); get_array_size_scores_dueling_categorical_dqn (Flat_Model); get_array_size_scores_index_dueling_categorical_dqn (Flat_Model, Rank_Model); get_array_size_weights_dueling_categorical_dqn (Flat_Model); memcopy_vector_to_params_dueling_categorical_dqn (Flat_Model); memcopy_vector_to_scores_dueling_categorical_dqn (Flat_Model); memcopy_vector_to_indices_dueling_categorical_dqn2 (Flat_Model); assign_vector_to_scores_dueling_categorical_dqn (Flat_Model); memcopy_vector_to_indices_dueling_categorical_dqn (Flat_Model); memcopy_params_to_vector_dueling_categorical_dqn (Flat_Model); memcopy_weights_to_vector_dueling_categorical_dqn (Flat_Model); memcopy_vector_to_weights_dueling_categorical_dqn (Flat_Model); memcopy_scores_to_vector_dueling_categorical_dqn (Flat_Model); memcopy_indices_to_vector_dueling_categorical_dqn (Flat_Model); set_dueling_categorical_dqn_biases_to_zero (Scr_Model); compute_probability_distribution (Duel_Model); compute_probability_distribution_qr_dqn (Duel_Model); compute_probability_distribution_opt (Duel_Model); compute_probability_distribution_opt_qr_dqn (Duel_Model); bp_dueling_categorical_network (Duel_Model); bp_dueling_categorical_network_opt (Duel_Model); bp_qr_dqn_opt (Duel_Model); compute_q_functions (Duel_Model); compute_q_functions_qr_dqn (Duel_Model); get_loss_for_dueling_categorical_dqn (Duel_Model); get_loss_for_qr_dqn (Qr_Model); get_loss_for_dueling_categorical_dqn_opt (Duel_Model); get_loss_for_qr_dqn_opt (Qr_Model); get_loss_for_qr_dqn_opt_with_error (Qr_Model); get_loss_for_dueling_categorical_dqn_opt_with_error (Duel_Model).

Not modelled: dueling_categorical_dqn_init_without_arrays, set_iqn, free_dueling_categorical_dqn_without_arrays, free_scores_dueling_categorical_dqn, free_indices_dueling_categorical_dqn, set_null_scores_dueling_categorical_dqn, set_null_indices_dueling_categorical_dqn, reset_dueling_categorical_dqn_only_for_ff, copy_dueling_categorical_dqn, copy_dueling_categorical_dqn_without_learning_parameters, paste_dueling_categorical_dqn, paste_dueling_categorical_dqn_without_learning_parameters, size_of_dueling_categorical_dqn, size_of_dueling_categorical_dqn_without_learning_parameters, count_weights_dueling_categorical_dqn, set_dueling_categorical_dqn_unused_weights_to_zero, sum_score_dueling_categorical_dqn, compare_score_dueling_categorical_dqn, compare_score_dueling_categorical_dqn_with_vector, dividing_score_dueling_categorical_dqn, reset_score_dueling_categorical_dqn, reinitialize_weights_according_to_scores_dueling_categorical_dqn, reinitialize_weights_according_to_scores_dueling_categorical_dqn_only_percentage, reinitialize_weights_according_to_scores_and_inner_info_dueling_categorical_dqn, reinitialize_w_dueling_categorical_dqn, reset_edge_popup_d_dueling_categorical_dqn, set_low_score_dueling_categorical_dqn, make_the_dueling_categorical_dqn_only_for_ff, compute_kl_dueling_categorical_dqn, compute_l1_dueling_categorical_dqn, compute_l1_qr_dqn_opt, compute_l1_dueling_categorical_dqn_opt, compute_l_infinite_dueling_categorical_dqn_opt, compute_kl_dueling_categorical_dqn_opt, compute_kl_qr_dqn_opt, compute_l_infinite_qr_dqn_opt, set_dueling_categorical_dqn_training_edge_popup, set_dueling_categorical_dqn_training_gd, set_dueling_categorical_dqn_beta, set_dueling_categorical_dqn_beta_adamod, get_beta1_from_dueling_categorical_dqn, get_beta2_from_dueling_categorical_dqn, get_beta3_from_dueling_categorical_dqn, set_ith_layer_training_mode_dueling_categorical_dqn_shared, set_ith_layer_training_mode_dueling_categorical_dqn_v_hid, set_ith_layer_training_mode_dueling_categorical_dqn_v_lin, set_ith_layer_training_mode_dueling_categorical_dqn_a_hid, set_ith_layer_training_mode_dueling_categorical_dqn_a_lin, set_k_percentage_of_ith_layer_dueling_categorical_dqn_shared, set_k_percentage_of_ith_layer_dueling_categorical_dqn_v_hid, set_k_percentage_of_ith_layer_dueling_categorical_dqn_v_lin, set_k_percentage_of_ith_layer_dueling_categorical_dqn_a_hid, set_k_percentage_of_ith_layer_dueling_categorical_dqn_a_lin, get_input_layer_size_dueling_categorical_dqn, inference_dqn, train_dqn, dueling_dqn_eliminate_noisy_layers, assign_noise_arrays_dueling_categorical_dqn.

## efficientzero.c: 5 of 8

Modelled: add_buffer_state_efficientzero (Replay_Model); add_buffer_state_reward_sampling_efficientzero (Rewards_Model); update_buffer_state_efficientzero (Replay_Model); update_buffer_state_reward_sampling_efficientzero (Rewards_Model); add_experience_efficientzero (Replay_Model, Rewards_Model).

Not modelled: init_efficientzero, free_efficientzero, train_rainbow.

## efficientzeromodel.c: 12 of 78

Modelled: init_efficientzero_model (Save2_Model); save_efficientzero_model (Save2_Model); load_efficientzeromodel (Save2_Model); get_array_size_params_efficientzero_model (Flat_Model); get_array_size_scores_efficientzero_model (Flat_Model); get_array_size_weights_efficientzero_model (Flat_Model); memcopy_vector_to_params_efficientzero_model (Flat_Model); memcopy_vector_to_scores_efficientzero_model (Flat_Model); memcopy_params_to_vector_efficientzero_model (Flat_Model); memcopy_weights_to_vector_efficientzero_model (Flat_Model); memcopy_vector_to_weights_efficientzero_model (Flat_Model); memcopy_scores_to_vector_efficientzero_model (Flat_Model).

Not modelled: make_efficientzeromodel_only_for_ff, free_efficientzero_model, efficientzero_ff_p1, efficientzero_bp_p1, efficientzero_reset_p1, efficientzero_reset_only_for_ff_p1, efficientzero_ff_p2, efficientzero_bp_p2, efficientzero_reset_p2, efficientzero_reset_only_for_ff_p2, efficientzero_ff_rapresentation_h, efficientzero_bp_rapresentation_h, efficientzero_reset_rapresentation_h, efficientzero_reset_only_for_ff_rapresentation_h, efficientzero_ff_dynamics_g, efficientzero_bp_dynamics_g, efficientzero_reset_dynamics_g, efficientzero_reset_only_for_ff_dynamics_g, efficientzero_ff_prediction_f, efficientzero_bp_prediction_f, efficientzero_reset_prediction_f, efficientzero_reset_only_for_ff_prediction_f, efficientzero_ff_reward_prediction_single_cell, set_efficientzero_model_training_edge_popup, efficientzero_ff_reward_prediction, efficientzero_bp_reward_prediction, efficientzero_reset_reward_prediction, efficientzero_reset_only_for_ff_reward_prediction, efficientzero_reset_only_for_ff_reward_prediction_single_cell, efficientzero_ff_p1_opt, efficientzero_bp_p1_opt, efficientzero_reset_p1_without_learning_parameters, efficientzero_reset_only_for_ff_p1_without_learning_parameters, efficientzero_ff_p2_opt, efficientzero_bp_p2_opt, efficientzero_reset_p2_without_learning_parameters, efficientzero_reset_only_for_ff_p2_without_learning_parameters, efficientzero_ff_rapresentation_h_opt, efficientzero_bp_rapresentation_h_opt, efficientzero_reset_rapresentation_h_without_learning_parameters, efficientzero_reset_only_for_ff_rapresentation_h_without_learning_parameters, efficientzero_ff_dynamics_g_opt, efficientzero_bp_dynamics_g_opt, efficientzero_reset_dynamics_g_without_learning_parameters, efficientzero_reset_only_for_ff_dynamics_g_without_learning_parameters, efficientzero_ff_prediction_f_opt, efficientzero_bp_prediction_f_opt, efficientzero_reset_prediction_f_without_learning_parameters, efficientzero_reset_only_for_ff_prediction_f_without_learning_parameters, efficientzero_ff_reward_prediction_opt, efficientzero_bp_reward_prediction_opt, efficientzero_reset_reward_prediction_without_learning_parameters, efficientzero_reset_only_for_ff_reward_prediction_without_learning_parameters, save_efficientzero_model_given_directory, reset_efficientzeromodel, reset_efficientzeromodel_only_for_ff, reset_efficientzeromodel_without_learning_parameters, reset_efficientzeromodel_only_for_ff_without_learning_parameters, copy_efficientzero_model, paste_efficientzero_model, slow_paste_efficientzero_model, size_of_efficientzero_model, size_of_efficientzero_model_without_learning_parameters, count_weights_efficientzero_model, set_efficientzero_model_beta, set_efficientzero_model_beta_adamond.

## feedforward.c: 3 of 3

Modelled: feed_forward (Ff_Model); ff_reconstruction (Ff_Model); recursive_computation (Ff_Model).

## fitness.c: 6 of 6

Modelled: get_mean_fitness (Species_Model); get_best_specie_fitness (Species_Model); get_worst_specie_fitness (Species_Model); get_mean_specie_fitness (Species_Model); get_mean_specie_fitness_no_norm (Species_Model); sort_genomes_by_fitness (Species_Model).

## fully_connected.c: 7 of 9

Modelled: fully_connected_feed_forward (FC_Model); noisy_fully_connected_feed_forward (FC_Model); fully_connected_feed_forward_edge_popup (FC_Model); fully_connected_back_prop (FC_Model); noisy_fully_connected_back_prop (FC_Model); fully_connected_back_prop_edge_popup (FC_Model); fully_connected_back_prop_edge_popup_ff_gd_bp (FC_Model).

Not modelled: noisy_fully_connected_feed_forward_edge_popup, noisy_fully_connected_back_prop_edge_popup_ff_gd_bp.

## fully_connected_layers.c: 56 of 74

Modelled: fully_connected (Life_Model, Save_Model); fully_connected_without_learning_parameters (Flat_Model); is_noisy (Flat_Model, Life_Model); exists_params_fcl (Flat_Model, Life_Model, Soft_Model); exists_d_params_fcl (Flat_Model, Life_Model, Soft_Model); exists_dropout_stuff_fcl (Flat_Model, Life_Model, Soft_Model); exists_edge_popup_stuff_fcl (Flat_Model, Life_Model, Save_Model, Soft_Model); exists_activation_fcl (Flat_Model, Life_Model); exists_normalization_fcl (Life_Model); save_fcl (Save_Model); copy_fcl_params (Save_Model); load_fcl (Save_Model); copy_fcl (Life_Model); reset_fcl (Ddpg_Model, Life_Model, Mlp_Model, Vec_Model); reset_fcl_only_for_ff (Life_Model); reset_fcl_except_partial_derivatives (Life_Model); reset_fcl_without_dwdb (Life_Model); paste_fcl (Life_Model); paste_w_fcl (Life_Model); slow_paste_fcl (Soft_Model); count_weights_fcl (Flat_Model); get_array_size_params (Flat_Model); get_array_size_scores_fcl (Flat_Model); get_array_size_weights (Flat_Model); memcopy_vector_to_params (Flat_Model); memcopy_vector_to_scores (Flat_Model); memcopy_vector_to_indices2 (Flat_Model); memcopy_indices_to_vector (Flat_Model); assign_vector_to_scores (Flat_Model); memcopy_vector_to_indices (Flat_Model); memcopy_params_to_vector (Flat_Model); memcopy_weights_to_vector (Flat_Model); memcopy_vector_to_weights (Flat_Model); memcopy_scores_to_vector (Flat_Model); memcopy_scores_to_indices (Flat_Model); memcopy_vector_to_derivative_params (Flat_Model); memcopy_derivative_params_to_vector (Flat_Model); set_fully_connected_biases_to_zero (Scr_Model); set_fully_connected_unused_weights_to_zero (Scr_Model); sum_score_fcl (Scr_Model); compare_score_fcl (Scr_Model); compare_score_fcl_with_vector (Scr_Model); dividing_score_fcl (Scr_Model); set_fcl_only_dropout (Save_Model, Scr_Model); reset_score_fcl (Scr_Model); reinitialize_weights_according_to_scores_fcl (Scr_Model); reinitialize_weights_according_to_scores_fcl_only_percentage (Scr_Model); reinitialize_weights_according_to_scores_and_inner_info_fcl (Scr_Model); reinitialize_w_fcl (Scr_Model); reset_edge_popup_d_fcl (Scr_Model); set_low_score_fcl (Scr_Model); get_used_outputs (Life_Model); make_the_fcl_only_for_ff (Life_Model, Vec_Model); inference_fcl (Life_Model, Vec_Model); eliminate_noisy_layers (Life_Model, Vec_Model); train_fcl (Life_Model, Vec_Model).

Not modelled: fully_connected_without_arrays, free_fully_connected, free_fully_connected_without_arrays, free_fully_connected_for_edge_popup, free_fully_connected_complementary_edge_popup, copy_fcl_without_learning_parameters, copy_light_fcl, reset_fcl_without_learning_parameters, reset_fcl_without_dwdb_without_learning_parameters, reset_fcl_for_edge_popup, free_scores, free_indices, set_null_scores, set_null_indices, size_of_fcls, size_of_fcls_without_learning_parameters, paste_fcl_without_learning_parameters, assign_noise_arrays.

## gd.c: 5 of 5

Modelled: nesterov_momentum (Optim_Model); adam_algorithm (Optim_Model); radam_algorithm (Optim_Model); adam_diff_grad_algorithm (Optim_Model); adamod (Optim_Model).

## initialization.c: 11 of 11

Modelled: r2 (Pe_Model, Vec_Model); random_beta (Pe_Model); signed_r2 (Pe_Model); generate_from_random_distribution (Pe_Model); drand (Ou_Model, Pe_Model); random_normal (Ou_Model, Pe_Model); random_general_gaussian (Pe_Model); random_general_gaussian_xavier_init (Pe_Model); random_general_gaussian_xavier_init2 (Pe_Model); random_general_gaussian_kaiming_init (Pe_Model); signed_kaiming_constant (Pe_Model).

## iq.c: 2 of 3

Modelled: init_iq (Iq_Model); train_iqn (Iq_Model).

Not modelled: free_iqn.

## learning_rate_decay.c: 5 of 5

Modelled: constant_decay (LrDecay_Model); time_based_decay (LrDecay_Model); step_decay (LrDecay_Model); cosine_annealing (LrDecay_Model); update_lr (LrDecay_Model).

## math_functions.c: 97 of 108

Modelled: mean (Fn_Model); std (Fn_Model, Iq_Model); get_sorted_probability_vector (Rank_Model); copy_clipped_vector (Clip_Model); clip_vector (Clip_Model, Duel_Model); softmax (Pg_Model, Softmax_Model); mat_mul (FC_Model); sample_softmax_with_temperature (Pg_Model); derivative_softmax_array (Softmax_Model); derivative_softmax (Softmax_Model); sigmoid (Act_Model); abs_sigmoid (Act_Model, Optim_Model); sigmoid_array (Act_Model); abs_sigmoid_array (Act_Model); derivative_sigmoid (Act_Model); derivative_sigmoid_given_the_sigmoid (Act_Model); derivative_sigmoid_array (Act_Model); derivative_sigmoid_array_given_the_sigmoid (Act_Model); relu (Act_Model); relu_array (Act_Model); derivative_relu (Act_Model); derivative_relu_array (Act_Model); leaky_relu (Act_Model); leaky_relu_array (Act_Model); derivative_leaky_relu (Act_Model); derivative_leaky_relu_array (Act_Model); tanhh (Act_Model); tanhh_array (Act_Model); derivative_tanhh (Act_Model); derivative_tanhh_array (Act_Model); mse (Loss_Model); mse_array (Loss_Model); derivative_mse (Loss_Model); derivative_mse_array (Loss_Model); cross_entropy (Loss_Model); derivative_inverse_q_function_array (Iq_Model, Loss_Model); cross_entropy_array (Loss_Model); derivative_cross_entropy (Loss_Model); derivative_cross_entropy_array (Loss_Model); cross_entropy_reduced_form (Loss_Model); derivative_cross_entropy_reduced_form_with_softmax (Loss_Model); derivative_cross_entropy_reduced_form_with_softmax_array (Loss_Model); total_variation_loss_2d (Loss_Model); derivative_total_variation_loss_2d (Loss_Model); huber_loss (Loss_Model); derivative_huber_loss (Loss_Model); derivative_huber_loss_array (Loss_Model); huber_loss_array (Loss_Model); modified_huber_loss (Loss_Model); derivative_modified_huber_loss (Loss_Model); derivative_modified_huber_loss_array (Loss_Model); modified_huber_loss_array (Loss_Model); focal_loss (Loss_Model); focal_loss_array (Loss_Model); derivative_focal_loss (Loss_Model); derivative_focal_loss_array (Loss_Model); kl_divergence (Loss_Model); derivative_kl_divergence (Loss_Model); entropy (Loss_Model); entropy_array (Loss_Model); derivative_entropy (Loss_Model); derivative_entropy_array (Loss_Model); constrantive_loss (Loss_Model); derivative_constrantive_loss (Loss_Model); constrantive_loss_array (Loss_Model); derivative_constrantive_loss_array (Softmax_Model); softmax_array_not_complete (Softmax_Model); elu (Act_Model); elu_array (Act_Model); derivative_elu (Act_Model); derivative_elu_array (Act_Model); inverse (Vec_Model); dot1D (FC_Model, Vae_Model); dotProduct1D (Attn_Model, FC_Model); div1D (FC_Model); sum1D (FC_Model, Norm_Model, Scr_Model, Sum_Model, Vae_Model); sub1D (FC_Model, Vec_Model); mul_value (FC_Model, Vec_Model); add_value (FC_Model); additional_mul_value (Attn_Model); compute_prob_average_double (Aco_Model); sum_residual_layers_partial_derivatives (Sum_Model); sum_convolutional_layers_partial_derivatives (Sum_Model); sum_fully_connected_layers_partial_derivatives (Sum_Model); sum_lstm_layers_partial_derivatives (Sum_Model); float_abs (Act_Model); sum_model_partial_derivatives (Sum_Model); sum_dueling_categorical_dqn_partial_derivatives (Ddpg_Model, Sum_Model); sum_models_partial_derivatives (Ddpg_Model, Sum_Model); sum_rmodel_partial_derivatives (Sum_Model); sum_rmodels_partial_derivatives (Sum_Model); sum_vae_model_partial_derivatives (Sum_Model); factorised_gaussian (Fn_Model); set_factorised_noise (Fn_Model); random_gamma (Fn_Model); dirichlet_sample (Fn_Model); mul_array_values_by_indices (Fn_Model).

Not modelled: min_int, min_float, max_int, max_float, normal_cdf, sum_over_input, sum_over_input_double, compute_prob_average, float_abs_array, get_float_abs_array, dot_float_input.

## mcts.c: 8 of 13

Modelled: init_mcts_edge (Mcts_Model); init_mcts (Mcts_Model); free_mcts (Mcts_Model); get_sum_visited_children_q_normalized_mcts_node (Mcts_Model); get_visited_children_q_mcts_node (Mcts_Model); visit_node (Mcts_Model); get_mcts_probability (Mcts_Model); get_mcts_v (Mcts_Model).

Not modelled: init_mcts_node, free_mcts_node, mcts_node_set_state, node_is_full_of_edges, mcts_node_add_edge.

## model.c: 70 of 121

Modelled: network (Ddpg_Model, Mlp_Model, Save_Model); free_model (Save_Model); slow_paste_model (Soft_Model); reset_model_without_learning_parameters (Pg_Model); reset_model_except_partial_derivatives (Pg_Model); save_model (Save_Model); save_model_given_directory (Save_Model); load_model (Save_Model); load_model_with_file_already_opened (Save_Model); ff_fcl_fcl (Mlp_Model); ff_cl_fcl_without_arrays (Mlp_Model); ff_cl_fcl (Mlp_Model); bp_fcl_fcl (Mlp_Model); bp_cl_fcl (Mlp_Model); model_tensor_input_ff (Mlp_Model); model_tensor_input_bp (Mlp_Model); count_weights (Flat_Model); get_array_size_params_model (Flat_Model); get_array_size_weights_model (Flat_Model); get_array_size_scores_model (Flat_Model); memcopy_vector_to_params_model (Flat_Model); memcopy_vector_to_weights_model (Flat_Model); memcopy_vector_to_scores_model (Flat_Model); memcopy_vector_to_indices_model2 (Flat_Model); assign_vector_to_scores_model (Flat_Model); memcopy_vector_to_indices_model (Flat_Model); memcopy_params_to_vector_model (Flat_Model); memcopy_weights_to_vector_model (Flat_Model); memcopy_scores_to_vector_model (Flat_Model); memcopy_indices_to_vector_model (Flat_Model); memcopy_vector_to_derivative_params_model (Flat_Model); memcopy_derivative_params_to_vector_model (Flat_Model); mse_model_error (Mlp_Model); mse_model_error_only_for_ff (Mlp_Model); inverse_q_model_error (Mlp_Model); policy_gradient_model_error (Mlp_Model, Pg_Model); cross_entropy_model_error (Mlp_Model); cross_entropy_model_error_only_for_ff (Mlp_Model); focal_model_error (Mlp_Model); focal_model_error_only_for_ff (Mlp_Model); huber_one_model_error (Mlp_Model); huber_one_model_error_only_for_ff (Mlp_Model); huber_two_model_error (Mlp_Model); huber_two_model_error_only_for_ff (Mlp_Model); kl_model_error (Mlp_Model); kl_model_error_only_for_ff (Mlp_Model); entropy_model_error (Mlp_Model); entropy_model_error_only_for_ff (Mlp_Model); compute_model_error (Mlp_Model); compute_model_error_only_for_ff (Mlp_Model); ff_error_bp_model_once (Mlp_Model, Pg_Model); ff_error_bp_model_once_opt (Scr_Model); set_model_biases_to_zero (Scr_Model); set_model_unused_weights_to_zero (Scr_Model); set_model_training_edge_popup (Flat_Model, Life_Model); set_model_training_gd (Flat_Model, Life_Model); sum_score_model (Scr_Model); compare_score_model (Scr_Model); compare_score_model_with_vector (Scr_Model); dividing_score_model (Scr_Model); avaraging_score_model (Scr_Model); reset_score_model (Scr_Model); reinitialize_weights_according_to_scores_model (Scr_Model); reinitialize_weights_according_to_scores_model_only_percentage (Scr_Model); reinitialize_weights_according_to_scores_and_inner_info_model (Scr_Model); reinitialize_w_model (Scr_Model); reset_edge_popup_d_model (Scr_Model); check_model_last_layer (Scr_Model); set_low_score_model (Scr_Model); get_input_layer_size (Save2_Model).

Not modelled: free_model_without_learning_parameters, free_model_without_arrays, free_scores_model, free_indices_model, set_null_scores_model, set_null_indices_model, get_output_layer_from_model, get_output_dimension_from_model, copy_model, copy_model_without_learning_parameters, paste_model, paste_model_without_learning_parameters, paste_w_model, reset_model, reset_model_only_for_ff, reset_model_without_dwdb, reset_model_without_dwdb_without_learning_parameters, reset_model_for_edge_popup, size_of_model, size_of_model_without_learning_parameters, ff_fcl_fcl_without_arrays, ff_fcl_fcl_without_learning_parameters, ff_fcl_cl, ff_fcl_cl_without_arrays, ff_fcl_cl_without_learning_parameters, ff_cl_fcl_without_learning_parameters, model_eliminate_noisy_layers, ff_cl_cl_without_arrays, ff_cl_cl, ff_cl_cl_without_learning_parameters, bp_fcl_fcl_without_learning_parameters, bp_fcl_cl, bp_fcl_cl_without_learning_parameters, bp_cl_cl, bp_cl_cl_without_learning_parameters, bp_cl_fcl_without_learning_parameters, model_tensor_input_ff_without_learning_parameters, model_tensor_input_ff_without_arrays, model_tensor_input_bp_without_learning_parameters, set_model_error, make_the_model_only_for_ff, inference_model, train_model, set_model_beta, set_model_beta_adamod, get_beta1_from_model, get_beta2_from_model, get_beta3_from_model, set_ith_layer_training_mode_model, set_k_percentage_of_ith_layer_model, assign_noise_arrays_model.

## multi_core_dueling_categorical_dqn.c: 6 of 14

Modelled: dueling_categorical_dqn_thread_sum (Sum_Model); dueling_categorical_dqn_train_kl (Disp_Model); dueling_categorical_dqn_train_l1 (Disp_Model); dueling_categorical_dqn_train_l_infinite (Disp_Model, Rain_Model); dueling_categorical_dqn_train_with_error (Rain_Model); sum_dueling_categorical_dqn_partial_derivatives_multithread (Sum_Model).

Not modelled: dueling_categorical_dqn_train_thread, dueling_categorical_dqn_train_kl_thread, dueling_categorical_dqn_train_l1_thread, dueling_categorical_dqn_train_l_infinite_thread, dueling_categorical_dqn_train_with_error_thread, dueling_categorical_dqn_reset_thread, dueling_categorical_dqn_train, dueling_categorical_reset_without_learning_parameters_reset.

## multi_core_model.c: 9 of 16

Modelled: model_thread_sum (Sum_Model); model_thread_ff_loss_reset_only_for_ff_opt (Disp_Model); model_tensor_input_ff_multicore (Disp_Model); model_tensor_input_ff_multicore_only_for_ff_loss_reset_opt (Disp_Model); model_tensor_input_bp_multicore (Disp_Model); model_tensor_input_bp_multicore_opt (Disp_Model); ff_error_bp_model_multicore (Disp_Model); ff_error_bp_model_multicore_opt (Disp_Model); sum_models_partial_derivatives_multithread (Sum_Model).

Not modelled: model_thread_ff, model_thread_ff_opt, model_thread_bp, model_thread_bp_opt, model_thread_ff_bp, model_thread_ff_bp_opt, model_tensor_input_ff_multicore_opt.

## multi_core_neat.c: 3 of 5

Modelled: genome_thread_ff_opt (Disp_Model); feed_forward_multi_thread_opt (Disp_Model); feed_forward_multi_thread_opt_with_indices (Disp_Model).

Not modelled: genome_thread_ff, feed_forward_multi_thread.

## multi_core_rmodel.c: 4 of 8

Modelled: ff_rmodel_lstm_multicore (Disp_Model); ff_rmodel_lstm_multicore_opt (Disp_Model); bp_rmodel_lstm_multicore (Disp_Model); bp_rmodel_lstm_multicore_opt (Disp_Model).

Not modelled: rmodel_thread_ff, rmodel_thread_ff_opt, rmodel_thread_bp, rmodel_thread_bp_opt.

## multi_core_vae_model.c: 2 of 4

Modelled: vae_model_tensor_input_ff_multicore (Disp_Model); vae_model_tensor_input_bp_multicore (Disp_Model).

Not modelled: vae_model_thread_ff, vae_model_thread_bp.

## mutations.c: 8 of 8

Modelled: connections_mutation (Neat_Model); split_random_connection (Neat_Model); add_random_connection (Neat_Model); remove_random_connection (Neat_Model); activate_random_connection (Neat_Model); activate_connections (Neat_Model); crossover (Neat_Model); activate_bias (Neat_Model).

## neat.c: 9 of 24

Modelled: init (Gen_Model, Gsave_Model); neat_generation_run (Gen_Model); free_neat (Gen_Model); get_neat_in_char_vector (Gsave_Model); get_length_of_char_neat (Gsave_Model); init_from_char (Gsave_Model); save_ith_genome (Gsave_Model); save_neat (Gsave_Model); load_neat (Gsave_Model).

Not modelled: set_generation_iter, set_max_population, get_generation_iter, get_number_of_genomes, reset_fitnesses, get_fitness_of_ith_genome, feed_forward_ith_genome, feed_forward_iths_genome, feed_forward_all_genomes, feed_forward_all_genomes_with_indices, reset_fitness_ith_genome, increment_fitness_of_genome_ith, get_global_innovation_number_nodes, get_global_innovation_number_connections, best_fitness.

## neat_utils.c: 18 of 24

Modelled: round_up (Gen_Model); save_genome (Gsave_Model); save_genome_complete (Gsave_Model); get_genome_array (Gsave_Model); get_genome_array_size (Gsave_Model); init_genome_from_array (Gsave_Model); load_genome (Gsave_Model); get_global_innovation_number_connections_from_genome (Gsave_Model); get_global_innovation_number_nodes_from_genome (Gsave_Model); load_genome_complete (Gsave_Model); modified_sigmoid (Ff_Model); init_genome (Neat_Model); free_genome (Neat_Model); copy_genome (Neat_Model, Species_Model); init_global_params (Neat_Model); get_connections (Neat_Model); get_numb_connections (Neat_Model); adjust_genome (Neat_Model).

Not modelled: random_float_number, shuffle_genome_set, shuffle_node_set, shuffle_connection_set, print_genome, random_number.

## noise.c: 5 of 5

Modelled: init_oustrategy (Ou_Model); free_oustrategy (Ou_Model); reset_oustrategy (Ou_Model); evolve_state (Ou_Model); get_action (Ou_Model).

## normalization.c: 21 of 25

Modelled: local_response_normalization_feed_forward (Norm_Model); local_response_normalization_back_prop (Norm_Model); local_response_normalization_feed_forward_fcl (Norm_Model); local_response_normalization_back_prop_fcl (Norm_Model); batch_normalization_feed_forward (Norm_Model); batch_normalization_feed_forward_first_step (Norm_Model); batch_normalization_feed_forward_second_step (Norm_Model); batch_normalization_back_prop (Norm_Model); batch_normalization_back_prop_first_step (Norm_Model); batch_normalization_final_mean_variance (Norm_Model); channel_normalization_feed_forward (Norm_Model); group_normalization_feed_forward (Norm_Model); group_normalization_back_propagation_without_learning_parameters (Mms_Model, Norm_Model); normalize_scores_among_fcl_layers (Mms_Model, Norm_Model); normalize_scores_among_cl_layers (Mms_Model, Norm_Model); normalize_scores_among_all_internal_layers (Mms_Model); given_max_min_normalize_fcl (Mms_Model); given_max_min_normalize_cl (Mms_Model); min_max_normalize_scores_among_all_leyers (Mms_Model); feed_forward_scaled_l2_norm (Norm_Model); back_propagation_scaled_l2_norm (Norm_Model).

Not modelled: batch_normalization_back_prop_second_step, channel_normalization_back_prop, group_normalization_feed_forward_without_learning_parameters, group_normalization_back_propagation.

## parser.c: 13 of 20

Modelled: get_inputs_from_multiple_instances_single_char_binary_file_with_single_softmax_output (Parse_Model); get_outputs_from_multiple_instances_single_char_binary_file_with_single_softmax_output (Parse_Model); single_instance_single_csv_file_parser (Parse_Model); single_instance_multiple_csv_file_parser (Parse_Model); multiple_instance_single_csv_file_parser (Parse_Model); single_instance_single_file_parser (Parse_Model); single_instance_multiple_file_parser (Parse_Model); multiple_instance_single_file_parser (Parse_Model); parse_model_file (Desc_Model); parse_model_without_learning_parameters_file (Desc_Model); parse_model_without_arrays_file (Desc_Model); parse_model_str (Desc_Model); parse_model_without_learning_parameters_str (Desc_Model).

Not modelled: parse_model_without_arrays_str, parse_dueling_categorical_dqn_file, parse_dueling_categorical_dqn_str, parse_dueling_categorical_dqn_without_learning_parameters_file, parse_dueling_categorical_dqn_without_learning_parameters_str, parse_dueling_categorical_dqn_without_arrays_file, parse_dueling_categorical_dqn_without_arrays_str.

## policy_gradient.c: 4 of 4

Modelled: init_policy_gradient (Optim_Model, Pg_Model); policy_gradient_training_passage (Optim_Model, Pg_Model); get_policies (Pg_Model); sample_action_from_output_layer (Pg_Model).

## positional_encoding.c: 1 of 1

Modelled: sin_cos_positional_encoding_vector (Pe_Model).

## rainbow.c: 8 of 13

Modelled: init_rainbow (Explore_Model, Optim_Model); update_exploration_probability (Explore_Model); add_buffer_state (Cumul_Model, Rain_Model, Replay_Model); add_buffer_state_reward_sampling (Rewards_Model); update_buffer_state (Replay_Model); update_buffer_state_reward_sampling (Cumul_Model, Rewards_Model); add_experience (Replay_Model, Rewards_Model); train_rainbow (Cumul_Model, NStep_Model, Optim_Model, Rain_Model, Replay_Model, Rewards_Model).

Not modelled: copy_rainbow, reset_rainbow, free_rainbow, get_action_rainbow, add_state_plus_q_functions_to_diversity_driven_buffer.

## recurrent.c: 2 of 4

Modelled: lstm_ff (Lstm_Model); lstm_bp (Lstm_Model).

Not modelled: lstm_ff_edge_popup, lstm_bp_edge_popup.

## recurrent_layers.c: 14 of 36

Modelled: recurrent_lstm (Flat_Model, Save2_Model); save_lstm (Save2_Model); load_lstm (Save2_Model); slow_paste_lstm (Soft_Model); get_used_outputs_lstm (Save2_Model); get_array_size_params_lstm (Flat_Model); get_array_size_scores_lstm (Flat_Model); get_array_size_weights_lstm (Flat_Model); memcopy_params_to_vector_lstm (Flat_Model); memcopy_scores_to_vector_lstm (Flat_Model); memcopy_vector_to_params_lstm (Flat_Model); memcopy_vector_to_weights_lstm (Flat_Model); memcopy_weights_to_vector_lstm (Flat_Model); memcopy_vector_to_scores_lstm (Flat_Model).

Not modelled: recurrent_lstm_without_learning_parameters, exists_d_params_lstm, exists_edge_popup_stuff_lstm, exists_dropout_up, exists_dropout_right, free_recurrent_lstm, free_recurrent_lstm_without_learning_parameters, copy_lstm, copy_lstm_without_learning_parameters, paste_lstm, paste_lstm_without_learning_parameters, paste_w_lstm, reset_lstm, reset_lstm_except_partial_derivatives, reset_lstm_without_dwdb, reset_lstm_without_dwdb_without_learning_parameters, reset_lstm_without_learning_parameters, make_the_lstm_only_for_ff, reset_lstm_only_for_ff, size_of_lstm, size_of_lstm_without_learning_parameters, count_weights_lstm.

## regularization.c: 4 of 4

Modelled: add_l2_residual_layer (Upd_Model); add_l2_convolutional_layer (Upd_Model); add_l2_fully_connected_layer (Upd_Model); add_l2_lstm_layer (Upd_Model).

## residual_layers.c: 33 of 55

Modelled: residual (Save_Model); save_rl (Save_Model); load_rl (Save_Model); slow_paste_rl (Soft_Model); get_array_size_params_rl (Flat_Model); get_array_size_scores_rl (Flat_Model); get_array_size_weights_rl (Flat_Model); make_the_rl_only_for_ff (Flat_Model); memcopy_vector_to_params_rl (Flat_Model); memcopy_vector_to_weights_rl (Flat_Model); memcopy_vector_to_scores_rl (Flat_Model); memcopy_vector_to_indices_rl2 (Flat_Model); assign_vector_to_scores_rl (Flat_Model); memcopy_vector_to_indices_rl (Flat_Model); memcopy_params_to_vector_rl (Flat_Model); memcopy_weights_to_vector_rl (Flat_Model); memcopy_scores_to_vector_rl (Flat_Model); memcopy_indices_to_vector_rl (Flat_Model); memcopy_vector_to_derivative_params_rl (Flat_Model); memcopy_derivative_params_to_vector_rl (Flat_Model); set_residual_biases_to_zero (Scr_Model); get_used_kernels_rl (Scr_Model); sum_score_rl (Scr_Model); compare_score_rl (Scr_Model); compare_score_rl_with_vector (Scr_Model); dividing_score_rl (Scr_Model); reset_score_rl (Scr_Model); reinitialize_weights_according_to_scores_rl (Scr_Model); reinitialize_weights_according_to_scores_rl_only_percentage (Scr_Model); reinitialize_weights_according_to_scores_and_inner_info_rl (Scr_Model); reinitialize_w_rl (Scr_Model); reset_edge_popup_d_rl (Scr_Model); set_low_score_rl (Scr_Model).

Not modelled: free_residual, free_residual_without_learning_parameters, free_residual_without_arrays, free_scores_rl, free_indices_rl, set_null_scores_rl, set_null_indices_rl, copy_rl, copy_rl_without_learning_parameters, reset_rl, reset_rl_only_for_ff, reset_rl_without_learning_parameters, reset_rl_except_partial_derivatives, reset_rl_without_dwdb, reset_rl_without_dwdb_without_learning_patameters, reset_rl_for_edge_popup, size_of_rls, size_of_rls_without_learning_parameters, count_weights_rl, paste_rl, paste_rl_without_learning_parameters, paste_w_rl.

## rmodel.c: 16 of 44

Modelled: recurrent_network (Save2_Model); slow_paste_rmodel (Soft_Model); save_rmodel (Save2_Model); load_rmodel_with_file_already_opened (Save2_Model); ff_rmodel_lstm (Lstm_Model); bp_rmodel_lstm (Lstm_Model); lstm_dinput (Lstm_Model); get_array_size_params_rmodel (Flat_Model); get_array_size_weights_rmodel (Flat_Model); get_array_size_scores_rmodel (Flat_Model); memcopy_vector_to_params_rmodel (Flat_Model); memcopy_vector_to_weights_rmodel (Flat_Model); memcopy_vector_to_scores_rmodel (Flat_Model); memcopy_params_to_vector_rmodel (Flat_Model); memcopy_weights_to_vector_rmodel (Flat_Model); memcopy_scores_to_vector_rmodel (Flat_Model).

Not modelled: free_rmodel, free_rmodel_without_learning_parameters, copy_rmodel, copy_rmodel_without_learning_parameters, paste_rmodel, paste_rmodel_without_learning_parameters, paste_w_rmodel, reset_rmodel, reset_rmodel_without_learning_parameters, reset_rmodel_only_for_ff, make_the_rmodel_only_for_ff, load_rmodel, ff_rmodel_lstm_opt, bp_rmodel_lstm_opt, count_weights_rmodel, size_of_rmodel, size_of_rmodel_without_learning_parameters, lstm_dinput_opt, lstm_dh, lstm_dh_opt, ff_rmodel, ff_rmodel_opt, bp_rmodel, bp_rmodel_opt, get_ith_output_cell, set_rmodel_beta, set_rmodel_beta_adamod, set_rmodel_training_edge_popup.

## scaled_l2_norm_layers.c: 4 of 10

Modelled: scaled_l2_normalization_layer (Save2_Model); save_scaled_l2_norm (Save2_Model); load_scaled_l2_norm (Save2_Model); slow_paste_scaled_l2_norm (Soft_Model).

Not modelled: free_scaled_l2_normalization_layer, copy_scaled_l2_norm, reset_scaled_l2_norm, reset_scaled_l2_norm_except_partial_derivatives, size_of_scaled_l2_norm, paste_scaled_l2_norm.

## speciation.c: 7 of 8

Modelled: compute_species_distance (Species_Model); create_species (Species_Model); free_species_except_for_rapresentatives (Species_Model); put_genome_in_species (Species_Model); update_best_specie_fitnesses (Species_Model); get_oldest_age (Species_Model); delete_species_without_population (Species_Model).

Not modelled: free_species.

## struct_conn.c: 0 of 9

Not modelled: structure_connection, free_struct_conn, reset_struct_conn, paste_struct_conn, struct_connection_input_arrays, ff_struc_conn, ff_struc_conn_opt, bp_struc_conn, bp_struc_conn_opt.

## struct_conn_handler.c: 3 of 3

Modelled: struct_handler (Cyc_Model); free_struct_handler (Cyc_Model); there_are_no_cycles (Cyc_Model).

## training.c: 0 of 3

Not modelled: get_training, save_training, standard_save_training.

## transformer.c: 3 of 21

Modelled: slow_paste_transformer (Soft_Model); save_transf (Save2_Model); load_transf (Save2_Model).

Not modelled: transf, free_transf, free_transf_without_learning_parameters, copy_transf, copy_transf_without_learning_parameters, paste_transformer, paste_transformer_without_learning_parameters, reset_transf, reset_transf_without_learning_parameters, reset_transf_decoders, reset_transf_for_edge_popup, size_of_transformer, size_of_transformer_without_learning_parameters, get_output_layer_from_encoder_transf, transf_ff, transf_ff_opt, transf_bp, transf_bp_opt.

## transformer_decoder.c: 4 of 24

Modelled: transformer_decoder_layer (Save2_Model); save_transformer_decoder (Save2_Model); load_transformer_decoder (Save2_Model); slow_paste_transformer_decoder (Soft_Model).

Not modelled: free_transformer_decoder_layer, free_transformer_decoder_layer_without_learning_parameters, copy_transformer_decoder, copy_transformer_decoder_without_learning_parameters, reset_transformer_decoder, reset_transformer_decoder_without_learning_parameters, reset_transformer_decoder_except_partial_derivatives_and_left_input, reset_transformer_decoder_for_edge_popup, size_of_transformer_decoder, size_of_transformer_decoder_without_learning_parameters, paste_transformer_decoder, paste_transformer_decoder_without_learning_parameters, decoder_transformer_ff, decoder_transformer_ff_opt, decoder_transformer_bp, decoder_transformer_bp_opt, wrapped_encoder_transformer_decoder_ff, wrapped_encoder_transformer_decoder_ff_opt, wrapped_encoder_transformer_decoder_bp, wrapped_encoder_transformer_decoder_bp_opt.

## transformer_encoder.c: 4 of 22

Modelled: transformer_encoder_layer (Save2_Model); save_transformer_encoder (Save2_Model); load_transformer_encoder (Save2_Model); slow_paste_transformer_encoder (Soft_Model).

Not modelled: free_transformer_encoder_layer, free_transformer_encoder_layer_without_learning_parameters, free_transformer_wrapped_encoder_layer, free_transformer_wrapped_encoder_layer_without_learning_parameters, copy_transformer_encoder, copy_transformer_encoder_without_learning_parameters, reset_transformer_encoder, reset_transformer_encoder_without_learning_parameters, reset_transformer_encoder_except_partial_derivatives, reset_transformer_encoder_for_edge_popup, size_of_transformer_encoder, size_of_transformer_encoder_without_learning_parameters, paste_transformer_encoder, paste_transformer_encoder_without_learning_parameters, encoder_transformer_ff, encoder_transformer_ff_opt, encoder_transformer_bp, encoder_transformer_bp_opt.

## update.c: 24 of 39

Modelled: update_residual_layer_nesterov (Upd_Model); update_residual_layer_adam (Upd_Model); update_convolutional_layer_nesterov (Upd_Model); update_convolutional_layer_adam (Upd_Model); update_convolutional_layer_adamod (Upd_Model); update_convolutional_layer_adam_diff_grad (Upd_Model); update_convolutional_layer_radam (Upd_Model); update_fully_connected_layer_nesterov (Upd_Model); update_batch_normalized_layer_nesterov (Upd_Model); update_fully_connected_layer_adam (Upd_Model); update_fully_connected_layer_adamod (Upd_Model); update_fully_connected_layer_adam_diff_grad (Upd_Model); update_fully_connected_layer_radam (Upd_Model); update_batch_normalized_layer_adam_diff_grad (Upd_Model); update_batch_normalized_layer_adam (Upd_Model); update_batch_normalized_layer_adamod (Upd_Model); update_batch_normalized_layer_radam (Upd_Model); update_lstm_layer_nesterov (Upd_Model); update_lstm_layer_adam_diff_grad (Upd_Model); update_lstm_layer_adam (Upd_Model); update_lstm_layer_adamod (Upd_Model); update_lstm_layer_radam (Upd_Model); update_model (Upd_Model); update_training_parameters (Optim_Model).

Not modelled: update_residual_layer_adamod, update_residual_layer_adam_diff_grad, update_residual_layer_radam, update_scaled_l2_norm_nesterov, update_scaled_l2_norm_adam, update_scaled_l2_norm_radam, update_scaled_l2_norm_adamod, update_scaled_l2_norm_adam_diff_grad, update_dueling_categorical_dqn, update_efficientzero_model, update_rmodel, update_transformer, update_transformer_decoder, update_transformer_encoder, update_vae_model.

## utils.c: 60 of 79

Modelled: get_full_path (Itoa_Model); get_dropout_array (Itoa_Model, Lstm_Model, Vec_Model, Work_Model); set_dropout_mask (Vec_Model); ridge_regression (Upd_Model); itoa_n (Itoa_Model); shuffle_char_matrix (Shuffle_Model); shuffle_char_matrices (Shuffle_Model); shuffle_float_matrices (Scr_Model, Shuffle_Model); shuffle_char_matrices_float_int_vectors (Shuffle_Model); shuffle_float_matrices_float_int_vectors (Shuffle_Model); shuffle_char_matrices_float_int_int_vectors (Shuffle_Model); shuffle_float_matrices_float_int_int_vectors (Shuffle_Model); shuffle_float_matrix (Shuffle_Model); shuffle_float_matrix_float_tensor (Shuffle_Model); shuffle_int_matrix (Shuffle_Model); shuffle_int_array (Shuffle_Model); shuffle_int_array_until_length (Shuffle_Model); shuffle_int_matrices (Scr_Model, Shuffle_Model); bool_is_real (Scr_Model); copy_array (Flat_Model, Life_Model, Rank_Model, Save_Model, Vae_Model); copy_int_array (Life_Model, Rank_Model, Save_Model); confusion_matrix (Confusion_Model); accuracy_array (Confusion_Model); precision_array (Confusion_Model); sensitivity_array (Confusion_Model); specificity_array (Confusion_Model); quick_sort (Sort_Model); quick_sort_int (Sort_Model); merge_sort (Pg_Model, Sort_Model); merge_sort_double (Mcts_Model); merge (Mcts_Model, Pg_Model, Sort_Model); merge_double (Mcts_Model); merge_sort (Mcts_Model); sort (Aco_Model, Life_Model, Mcts_Model, Pg_Model, Soft_Model, Sort_Model); sort_double (Mcts_Model); set_vector_with_value (Life_Model); read_files_from_file (Work_Model); set_files_free_from_file (Work_Model); remove_occupied_sets (Work_Model); argmax (Duel_Model, Heap_Model, Sort_Model); max_heapify (Heap_Model); max_heapify_up (Heap_Model); remove_ith_element_from_max_heap (Heap_Model); update_recursive_cumulative_heap_up (Cumul_Model); index_is_inside_buffer (Cumul_Model, Replay_Model); value_is_child (Cumul_Model); subtracted_value (Cumul_Model); subtracted_value_rewards (Cumul_Model, Rain_Model); weighted_random_sample (Cumul_Model); weighted_random_sample_rewards (Cumul_Model, Rain_Model); is_little_endian (Bytes_Model); reverse_ptr (Bytes_Model); swap_array_bytes_order (Bytes_Model, Gsave_Model); convert_data (Bytes_Model, Gsave_Model); convert_communication_data (Bytes_Model); readapt_scores (Rank_Model); readapt_scores_float (Rank_Model); set_float_vector_to_int_vector (Rank_Model); scores_and_indices_readapter (Rain_Model, Rank_Model); scores_and_indices_readapter_float (Rain_Model, Rank_Model).

Not modelled: set_array_random_normal, read_files, read_file_in_char_vector, uint64t_read_file_in_char_vector, copy_char_array, free_matrix, print_accuracy, print_precision, print_sensitivity, print_specificity, get_files, merge, free_tensor, free_4D_tensor, set_int_vector_with_value, msleep, get_new_copy_int_array, merge_for_probabilities, merge_sort_for_probabilities.

## vae_model.c: 7 of 12

Modelled: variational_auto_encoder_model (Save2_Model, Vae_Model); free_vae_model (Vae_Model); slow_paste_vae_model (Soft_Model); save_vae_model (Save2_Model); load_vae_model (Save2_Model); vae_model_tensor_input_ff (Vae_Model); vae_model_tensor_input_bp (Vae_Model).

Not modelled: copy_vae_model, paste_vae_model, reset_vae_model, size_of_vae_model, count_weights_vae_model.

## vector.c: 7 of 10

Modelled: create_vector (Vec_Model); reset_vector (Vec_Model); copy_vector (Vec_Model); save_vector (Save2_Model, Vec_Model); load_vector (Save2_Model, Vec_Model); ff_vector (Vec_Model); bp_vector (Vec_Model).

Not modelled: free_vector, paste_vector, size_of_vector.

