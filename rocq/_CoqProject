-Q theories Verif
theories/Base.v
theories/BaseLemmas.v
theories/Shuffle_Model.v
theories/Shuffle_Spec.v
theories/Shuffle_Proofs.v
theories/Shuffle_Props.v
theories/Order.v
theories/OrderLemmas.v
theories/Sort_Model.v
theories/Sort_Proofs.v
theories/Sort_Spec.v
theories/Sort_Props.v
theories/Heap_Model.v
theories/Heap_Spec.v
theories/Heap_Proofs.v
theories/Replay_Spec.v
theories/Replay_Model.v
theories/Replay_Proofs.v
theories/Heap_Props.v
theories/Replay_Props.v
theories/RealSum.v
theories/Cumul_Model.v
theories/Cumul_Spec.v
theories/Cumul_Proofs.v
theories/Cumul_Props.v
theories/Rewards_Spec.v
theories/Rewards_Model.v
theories/Rewards_Proofs.v
theories/Rewards_Props.v
theories/NStep_Spec.v
theories/NStep_Model.v
theories/NStep_Proofs.v
theories/NStep_Props.v
theories/Explore_Model.v
theories/Explore_Props.v
theories/Dict_Model.v
theories/Dict_Props.v
theories/Confusion_Model.v
theories/Confusion_Spec.v
theories/Confusion_Props.v
theories/LrDecay_Model.v
theories/LrDecay_Props.v
theories/Itoa_Model.v
theories/Itoa_Props.v
theories/Bytes_Model.v
theories/Bytes_Props.v
theories/Clip_Model.v
theories/Clip_Props.v
theories/NumLib.v
theories/Deriv.v
theories/Act_Model.v
theories/Act_Props.v
theories/Grad.v
theories/Softmax_Model.v
theories/Softmax_Props.v
theories/Loss_Model.v
theories/Loss_Props.v
theories/NumLib2.v
theories/FC_Model.v
theories/FC_Spec.v
theories/FC_Proofs.v
theories/FC_Props.v
theories/NumLib3.v
theories/Conv_Model.v
theories/Conv_Spec.v
theories/Conv_Proofs.v
theories/TConv_Proofs.v
theories/Conv_Props.v
theories/Pool_Model.v
theories/Pool_Props.v
theories/Lstm_Model.v
theories/Lstm_Spec.v
theories/Lstm_Proofs.v
theories/Lstm_Bptt.v
theories/Lstm_Window.v
theories/Lstm_Props.v
theories/Attn_Model.v
theories/Attn_Spec.v
theories/Attn_Proofs.v
theories/Attn_Props.v
theories/Norm_Model.v
theories/Norm_Spec.v
theories/Norm_Proofs.v
theories/Norm_Channel.v
theories/Norm_More.v
theories/Norm_Props.v
theories/Optim_Model.v
theories/Optim_Spec.v
theories/Optim_Proofs.v
theories/Optim_Props.v
theories/Upd_Model.v
theories/Upd_Spec.v
theories/Upd_Proofs.v
theories/Upd_Layers.v
theories/Upd_L2.v
theories/Upd_Props.v
theories/Vec_Model.v
theories/Vec_Spec.v
theories/Vec_Proofs.v
theories/Vec_Props.v
theories/Mlp_Model.v
theories/Mlp_Spec.v
theories/Mlp_Proofs.v
theories/Mlp_Bp.v
theories/Mlp_Bp2.v
theories/Mlp_Grad.v
theories/Mlp_Props.v
theories/Net_Model.v
theories/Net_Spec.v
theories/Net_Proofs.v
theories/Sum_Model.v
theories/Sum_Spec.v
theories/Sum_Threads.v
theories/Net_Clip.v
theories/Sum_Proofs.v
theories/Sum_Reduce.v
theories/Sum_Facts.v
theories/Sum_Props.v
theories/Net_ClipProps.v
theories/Agc_Spec.v
theories/Agc_Proofs.v
theories/Agc_Props.v
theories/Disp_Model.v
theories/Disp_Spec.v
theories/Disp_Proofs.v
theories/Disp_Loops.v
theories/Disp_Chunks.v
theories/Disp_Props.v
theories/Duel_Model.v
theories/Duel_Spec.v
theories/Duel_Proofs.v
theories/Duel_Back.v
theories/Duel_Proj.v
theories/Duel_Props.v
theories/Qr_Model.v
theories/Qr_Props.v
theories/Soft_Model.v
theories/Soft_Spec.v
theories/Soft_Proofs.v
theories/Soft_Props.v
theories/Ou_Model.v
theories/Ou_Spec.v
theories/Ou_Proofs.v
theories/Ou_Props.v
theories/Save_Model.v
theories/Save_Spec.v
theories/Save_Proofs.v
theories/Save2_Model.v
theories/Save2_Spec.v
theories/Save2_Proofs.v
theories/Save_Props.v
theories/Mcts_Model.v
theories/Mcts_Spec.v
theories/Mcts_Proofs.v
theories/Mcts2_Proofs.v
theories/Mcts3_Proofs.v
theories/Mcts4_Proofs.v
theories/Mcts_Props.v
theories/Parse_Model.v
theories/Parse_Spec.v
theories/Parse_Proofs.v
theories/Parse_Props.v
theories/Desc_Model.v
theories/Desc_Spec.v
theories/Desc_Proofs.v
theories/Desc2_Proofs.v
theories/Desc_Props.v
theories/Neat_Model.v
theories/Neat_Spec.v
theories/Neat_Proofs.v
theories/Neat2_Proofs.v
theories/Neat3_Proofs.v
theories/Neat4_Proofs.v
theories/Tidy_Proofs.v
theories/Neat5_Proofs.v
theories/Neat6_Proofs.v
theories/Neat_Props.v
theories/Species_Model.v
theories/Species_Spec.v
theories/Species_Proofs.v
theories/Gen_Model.v
theories/Species2_Proofs.v
theories/Species_Props.v
theories/Gen_Spec.v
theories/Gen_Proofs.v
theories/Gen2_Proofs.v
theories/Gen3_Proofs.v
theories/Gen4_Proofs.v
theories/Gen_Props.v
theories/Aco_Model.v
theories/Aco2_Model.v
theories/Aco_Spec.v
theories/Aco_Proofs.v
theories/Aco2_Proofs.v
theories/Aco3_Proofs.v
theories/Aco4_Proofs.v
theories/Aco5_Proofs.v
theories/Aco6_Proofs.v
theories/Aco7_Proofs.v
theories/Aco8_Proofs.v
theories/Aco9_Proofs.v
theories/Aco_Props.v
theories/Pher_Spec.v
theories/Pher_Proofs.v
theories/Pher2_Proofs.v
theories/Pher3_Proofs.v
theories/Pher4_Proofs.v
theories/Pher_Props.v
theories/Swarm_Spec.v
theories/Swarm_Proofs.v
theories/Swarm2_Proofs.v
theories/Swarm3_Proofs.v
theories/Swarm4_Proofs.v
theories/Swarm_Props.v
theories/Ff_Model.v
theories/Ff_Proofs.v
theories/Ff2_Proofs.v
theories/Ff3_Proofs.v
theories/Ff4_Proofs.v
theories/Ff5_Proofs.v
theories/Ff6_Proofs.v
theories/Ff7_Proofs.v
theories/Ff8_Proofs.v
theories/Ff_Spec.v
theories/Ff9_Proofs.v
theories/Ff_Props.v
theories/Gsave_Model.v
theories/Gsave_Spec.v
theories/Gsave_Proofs.v
theories/Gsave2_Proofs.v
theories/Gsave3_Proofs.v
theories/Gsave_Props.v
theories/Flat_Model.v
theories/Flat_Spec.v
theories/Flat_Proofs.v
theories/Flat2_Proofs.v
theories/Flat3_Proofs.v
theories/Flat_Props.v
theories/Scr_Model.v
theories/Scr_Spec.v
theories/Scr_Proofs.v
theories/Scr2_Proofs.v
theories/Scr_Props.v
theories/Rain_Spec.v
theories/Rain_Model.v
theories/Rain_Proofs.v
theories/Rain2_Proofs.v
theories/Rain3_Proofs.v
theories/Rain_Props.v
theories/Cyc_Model.v
theories/Cyc_Spec.v
theories/Cyc_Proofs.v
theories/Cyc2_Proofs.v
theories/Cyc_Props.v
theories/Work_Model.v
theories/Work_Spec.v
theories/Work_Proofs.v
theories/Work_Props.v
theories/Ddpg_Model.v
theories/Ddpg_Spec.v
theories/Ddpg_Proofs.v
theories/Ddpg_Props.v
theories/Iq_Model.v
theories/Iq_Spec.v
theories/Iq_Proofs.v
theories/Iq_Props.v
theories/Vae_Model.v
theories/Vae_Spec.v
theories/Vae_Proofs.v
theories/Vae_Props.v
theories/Pe_Model.v
theories/Pe_Spec.v
theories/Pe_Proofs.v
theories/Pe_Props.v
theories/Pg_Model.v
theories/Pg_Spec.v
theories/Pg_Proofs.v
theories/Pg_Props.v
theories/Fn_Model.v
theories/Fn_Spec.v
theories/Fn_Proofs.v
theories/Fn_Props.v
theories/Life_Model.v
theories/Life_Spec.v
theories/Life_Proofs.v
theories/Life_Reset.v
theories/Life_Props.v
theories/Rank_Model.v
theories/Rank_Spec.v
theories/Rank_Proofs.v
theories/Rank_Props.v
theories/Mms_Model.v
theories/Mms_Spec.v
theories/Mms_Proofs.v
theories/Mms_Props.v
theories/Heads_Model.v
theories/Heads_Spec.v
theories/Heads_Props.v
