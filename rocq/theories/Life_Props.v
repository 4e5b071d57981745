(** C77: life cycle of a fully-connected layer: construction, copy, paste, reset, change of training mode *)
From Verif Require Import NumLib BaseLemmas Fn_Spec Life_Model Life_Spec Life_Proofs Life_Reset.
From Coq Require Import Reals Lia Lra.
Notation vec := (list R).
Open Scope nat_scope.

(** An admissible configuration gives a layer with exactly the arrays it needs, in their initial state.  *)
Theorem C77_construction : ∀ c ws nw g, admissible c -> ∃ f, fully_connected c ws nw g = Some f /\ cfg f = c /\ k_percentage f = 1%R /\ shaped f /\
  (∀ k, has c k -> scratch k -> arr f k = Some (repeat (if decide (k = Dropout_mask) then 1%R else 0%R) (fsize c k))) /\
  active f = Some (repeat 1 (output c)) /\ (has c Scores -> indices f = Some (seq 0 (input c * output c))).
Proof. intros c ws nw g Hc. destruct (fc_ok c ws nw g Hc) as (f & E & H1 & H2 & H3 & H4 & H5 & H6 & _). by exists f. Qed.
Print Assumptions C77_construction.
(** two configurations used in the examples: a noisy layer with layer normalization, and an edge-popup layer with dropout *)
Definition cfg_norm : config := mk_config 2 2 0 No_dropout true 0 1 Layer_norm Gradient Fully true.
Definition cfg_edge : config := mk_config 2 2 0 Dropout true (1 / 2) 1 No_norm Edge_popup Edge_popup_ff true.
Lemma cfg_norm_ok : admissible cfg_norm.
Proof. split; [|done]. unfold config_ok, cfg_norm. cbn. repeat split; try lia; try lra; try done. intros [?|?]; done. Qed.
Lemma cfg_edge_ok : admissible cfg_edge.
Proof. split; [|done]. unfold config_ok, cfg_edge. cbn. repeat split; try lia; try lra; try done. Qed.
Example C77_construction_case : ∃ f, fully_connected cfg_edge INR 1%R INR = Some f /\ arr f Dropout_mask = Some [1%R; 1%R] /\ indices f = Some [0; 1; 2; 3].
Proof. destruct (C77_construction cfg_edge INR 1%R INR cfg_edge_ok) as (f & E & _ & _ & _ & H & _ & Hi). exists f. split; [done|]. split; [apply H; [done|by apply scratch_cases]|apply Hi; left; done]. Qed.

(** A copy has the same configuration, parameters, partial derivatives, optimizer values, connections and layer normalization; everything
    else is as in a new layer.  *)
Theorem C77_copy : ∀ f ws nw g, admissible (cfg f) -> shaped f -> ∃ fresh cp, fully_connected (cfg f) ws nw g = Some fresh /\ copy_fcl f ws nw g = Some cp /\
  cfg cp = cfg f /\ k_percentage cp = k_percentage f /\ shaped cp /\ active cp = active f /\ indices cp = indices f /\
  (∀ k, kept k -> arr cp k = arr f k) /\ (∀ k, ~ kept k -> arr cp k = arr fresh k) /\
  (normalization_flag (cfg f) = Layer_norm -> ∃ b b', layer_norm f = Some b /\ layer_norm cp = Some b' /\ ∀ k, bn_kept k -> b_arr b' k = b_arr b k).
Proof.
  intros f ws nw g Hc Hs. destruct (copy_fcl_gen f ws nw g Hc (shaped_usable f Hs)) as (fresh & cp & E1 & E2 & H1 & H2 & H3 & H4 & H5 & H6 & H7 & H8). exists fresh, cp.
  split; [done|]. split; [done|]. split; [done|]. split; [done|]. split; [done|]. split; [done|]. pose proof Hs as (X1 & X2 & _ & X4 & X5 & _). pose proof H3 as (Y1 & Y2 & _ & Y4 & Y5 & _). rewrite H1 in Y2, Y5. split; [|split; [|split; [|]]].
  - destruct (decide (has (cfg f) Scores)) as [h|h]; [apply H5; [done|]; destruct (X4 h) as (l & -> & _); done|]. rewrite X5, Y5 by done. done.
  - intros k Hk. destruct (decide (has (cfg f) k)) as [h|h]; [apply H6; [done|done|]; destruct (X1 k h) as (v & -> & _); done|]. rewrite X2, Y2 by done. done.
  - intros k Hk. apply H7. tauto.
  - intros e. destruct (H8 e) as (b & b' & E & E' & _ & Hb). by exists b, b'.
Qed.
Print Assumptions C77_copy.
Example C77_copy_case : ∃ f cp, fully_connected cfg_norm INR 1%R INR = Some f /\ copy_fcl f (λ _, 0%R) 0%R INR = Some cp /\ arr cp Weights = arr f Weights /\ arr cp Weights <> None.
Proof.
  destruct (C77_construction cfg_norm INR 1%R INR cfg_norm_ok) as (f & E & Ec & _ & Hs & _). destruct (C77_copy f (λ _, 0%R) 0%R INR) as (fr & cp & _ & E' & _ & _ & _ & _ & _ & Hk & _); [rewrite Ec; apply cfg_norm_ok|done|].
  exists f, cp. split; [done|]. split; [done|]. rewrite Hk by (left; done). split; [done|]. destruct Hs as (X & _). destruct (X Weights) as (v & -> & _); done.
Qed.

(** The copy forgets the training mode of the layer normalization: whatever it was, the copy is trained with gradient descent, although
    copying a layer normalization alone keeps it.  *)
Theorem C77_copied_norm_mode_refuted : ∀ f ws nw g, admissible (cfg f) -> shaped f -> normalization_flag (cfg f) = Layer_norm ->
  ∃ b cp b', layer_norm f = Some b /\ copy_fcl f ws nw g = Some cp /\ layer_norm cp = Some b' /\ b_mode b' = Gradient /\ ∃ b2, copy_bn b = Some b2 /\ b_mode b2 = b_mode b.
Proof.
  intros f ws nw g Hc Hs e. destruct (copy_fcl_gen f ws nw g Hc (shaped_usable f Hs)) as (fresh & cp & E1 & E2 & _ & _ & _ & _ & _ & _ & _ & H8). destruct (H8 e) as (b & b' & E & E' & Hm & _).
  exists b, cp, b'. split; [done|]. split; [done|]. split; [done|]. split; [done|]. destruct Hs as (_ & _ & _ & _ & _ & X & _). destruct (X e) as (b0 & E0 & Hb & _). assert (b0 = b) as -> by congruence.
  destruct (copy_bn_ok b Hb) as (b2 & Eb & _ & _ & _ & Em & _). by exists b2.
Qed.
Print Assumptions C77_copied_norm_mode_refuted.
Example C77_copied_norm_mode_case : ∃ f b, shaped f /\ cfg f = cfg_norm /\ layer_norm f = Some b /\ b_mode b = Freeze.
Proof.
  destruct (C77_construction cfg_norm INR 1%R INR cfg_norm_ok) as (f & E & Ec & _ & Hs & _). pose proof Hs as (X1 & X2 & X3 & X4 & X5 & X6 & X7). rewrite Ec in *. destruct (X6 eq_refl) as (b & Eb & Hb & B & V).
  exists (mk_fcl cfg_norm (k_percentage f) (arr f) (active f) (indices f) (Some (mk_bn (batch b) (vdim b) Freeze (b_arr b)))). eexists. split; [|done]. unfold shaped. cbv zeta. cbn [cfg arr active indices layer_norm].
  split; [done|]. split; [done|]. split; [done|]. split; [done|]. split; [done|]. split; [|done]. intros _. eexists. split; [done|]. done.
Qed.

(** Pasting a layer on another one of the same size: everything both have is copied, nothing else changes.  *)
Theorem C77_paste : ∀ f cp, admissible (cfg f) -> admissible (cfg cp) -> shaped f -> shaped cp ->
  input (cfg f) = input (cfg cp) -> output (cfg f) = output (cfg cp) -> (normalization_flag (cfg f) = Layer_norm -> normalization_flag (cfg cp) = Layer_norm -> n_groups (cfg f) = n_groups (cfg cp)) ->
  ∃ r, paste_fcl f cp = Some r /\ cfg r = cfg cp /\ k_percentage r = k_percentage f /\ shaped r /\ active r = active f /\
    (∀ k, kept k -> has (cfg f) k -> has (cfg cp) k -> arr r k = arr f k) /\ (∀ k, ~ (kept k /\ has (cfg f) k /\ has (cfg cp) k) -> arr r k = arr cp k) /\
    (has (cfg f) Scores -> has (cfg cp) Scores -> indices r = indices f) /\ (~ (has (cfg f) Scores /\ has (cfg cp) Scores) -> indices r = indices cp) /\
    (normalization_flag (cfg f) = Layer_norm -> normalization_flag (cfg cp) = Layer_norm ->
       ∃ b b2 b', layer_norm f = Some b /\ layer_norm cp = Some b2 /\ layer_norm r = Some b' /\ b_mode b' = b_mode b2 /\ (∀ k, bn_kept k -> b_arr b' k = b_arr b k) /\ (∀ k, ~ bn_kept k -> b_arr b' k = b_arr b2 k)) /\
    (~ (normalization_flag (cfg f) = Layer_norm /\ normalization_flag (cfg cp) = Layer_norm) -> layer_norm r = layer_norm cp).
Proof. intros f cp H1 H2. apply paste_fcl_gen; [apply H1|apply H2]. Qed.
Print Assumptions C77_paste.
Example C77_paste_case : ∃ f f2 r, fully_connected cfg_norm INR 1%R INR = Some f /\ fully_connected cfg_norm (λ _, 0%R) 0%R INR = Some f2 /\ paste_fcl f f2 = Some r /\ arr r Weights = arr f Weights.
Proof.
  destruct (C77_construction cfg_norm INR 1%R INR cfg_norm_ok) as (f & E & Ec & _ & Hs & _). destruct (C77_construction cfg_norm (λ _, 0%R) 0%R INR cfg_norm_ok) as (f2 & E2 & Ec2 & _ & Hs2 & _).
  destruct (C77_paste f f2) as (r & Er & _ & _ & _ & _ & Hk & _); [rewrite ?Ec, ?Ec2; done || apply cfg_norm_ok..|]. exists f, f2, r. split; [done|]. split; [done|]. split; [done|]. apply Hk; [left; done|done|done].
Qed.

(** Layers of different sizes: nothing is pasted.  *)
Theorem C77_paste_other_size : ∀ f cp, 0 < output (cfg f) -> input (cfg f) <> input (cfg cp) \/ output (cfg f) <> output (cfg cp) -> paste_fcl f cp = Some cp.
Proof. intros f cp Ho H. by apply paste_size. Qed.
Print Assumptions C77_paste_other_size.
Example C77_paste_other_size_case : ∃ f f2, fully_connected cfg_norm INR 1%R INR = Some f /\ fully_connected (mk_config 3 2 0 No_dropout true 0 1 No_norm Gradient Fully true) INR 1%R INR = Some f2 /\ paste_fcl f f2 = Some f2.
Proof.
  destruct (C77_construction cfg_norm INR 1%R INR cfg_norm_ok) as (f & E & Ec & _ & Hs & _). destruct (C77_construction (mk_config 3 2 0 No_dropout true 0 1 No_norm Gradient Fully true) INR 1%R INR) as (f2 & E2 & Ec2 & _ & Hs2 & _).
  { split; [|done]. unfold config_ok. cbn. repeat split; try lia; try lra; try done. }
  exists f, f2. split; [done|]. split; [done|]. apply C77_paste_other_size; rewrite Ec; [cbn; lia|]. left. rewrite Ec2. done.
Qed.

(** The check of the sizes does not cover the groups of the layer normalization: if the target has more groups (so smaller ones), the paste
    writes past the end of its arrays.  *)
Theorem C77_paste_groups_refuted : ∀ f cp, admissible (cfg f) -> admissible (cfg cp) -> shaped f -> shaped cp -> input (cfg f) = input (cfg cp) -> output (cfg f) = output (cfg cp) ->
  normalization_flag (cfg f) = Layer_norm -> normalization_flag (cfg cp) = Layer_norm -> n_groups (cfg f) < n_groups (cfg cp) -> paste_fcl f cp = None.
Proof.
  intros f cp H1 H2 S1 S2 Ei Eo e1 e2 Hg. apply paste_groups; try done; [apply H1|apply H2|]. destruct H1 as ((_ & O1 & _ & _ & G1 & _) & _). destruct H2 as ((_ & O2 & _ & _ & G2 & _) & _).
  destruct (G1 e1) as (P1 & Q1 & M1). destruct (G2 e2) as (P2 & Q2 & M2). rewrite <- Eo in *. apply Nat.mod_divides in M1 as [q1 M1]; [|lia]. apply Nat.mod_divides in M2 as [q2 M2]; [|lia].
  assert (D1 : output (cfg f) / n_groups (cfg f) = q1) by (rewrite M1, Nat.mul_comm; apply Nat.div_mul; lia). assert (D2 : output (cfg f) / n_groups (cfg cp) = q2) by (rewrite M2, Nat.mul_comm; apply Nat.div_mul; lia).
  rewrite D1, D2. destruct (decide (q2 < q1)); [done|]. assert (0 < q2) by (destruct q2; lia). nia.
Qed.
Print Assumptions C77_paste_groups_refuted.
Example C77_paste_groups_case : ∃ f f2, fully_connected (mk_config 2 4 0 No_dropout true 0 1 Layer_norm Gradient Fully true) INR 1%R INR = Some f /\ fully_connected (mk_config 2 4 0 No_dropout true 0 2 Layer_norm Gradient Fully true) INR 1%R INR = Some f2 /\ paste_fcl f f2 = None.
Proof.
  assert (A : ∀ n, n = 1 \/ n = 2 -> admissible (mk_config 2 4 0 No_dropout true 0 n Layer_norm Gradient Fully true)).
  { intros n Hn. split; [|done]. unfold config_ok. cbn [input output dropout_threshold feed_forward_flag normalization_flag n_groups dropout_flag training_mode]. repeat split; try lia; try lra; try done; [destruct Hn as [->| ->]; done|]. intros [?|?]; done. }
  destruct (C77_construction _ INR 1%R INR (A 1 ltac:(lia))) as (f & E & Ec & _ & Hs & _). destruct (C77_construction _ INR 1%R INR (A 2 ltac:(lia))) as (f2 & E2 & Ec2 & _ & Hs2 & _).
  exists f, f2. split; [done|]. split; [done|]. apply C77_paste_groups_refuted; rewrite ?Ec, ?Ec2; try done; [apply A; lia|apply A; lia|cbn; lia].
Qed.

(** Pasting the parameters alone copies the parameters and nothing else; the fraction of connections edge popup uses is not copied.  *)
Theorem C77_paste_w : ∀ f cp, admissible (cfg f) -> shaped f -> shaped cp ->
  input (cfg f) = input (cfg cp) -> output (cfg f) = output (cfg cp) -> (normalization_flag (cfg f) = Layer_norm -> normalization_flag (cfg cp) = Layer_norm -> n_groups (cfg f) = n_groups (cfg cp)) ->
  ∃ r, paste_w_fcl f cp = Some r /\ cfg r = cfg cp /\ k_percentage r = k_percentage cp /\
    (∀ k, parameter k -> has (cfg f) k -> has (cfg cp) k -> arr r k = arr f k) /\ (∀ k, ~ (parameter k /\ has (cfg f) k /\ has (cfg cp) k) -> arr r k = arr cp k) /\
    (has (cfg f) Scores -> active r = active f /\ (has (cfg cp) Scores -> indices r = indices f)) /\ (~ has (cfg f) Scores -> active r = active cp) /\ (~ (has (cfg f) Scores /\ has (cfg cp) Scores) -> indices r = indices cp) /\
    (normalization_flag (cfg f) = Layer_norm -> normalization_flag (cfg cp) = Layer_norm ->
       ∃ b b2 b', layer_norm f = Some b /\ layer_norm cp = Some b2 /\ layer_norm r = Some b' /\ b_arr b' Gamma = b_arr b Gamma /\ b_arr b' Beta = b_arr b Beta /\ (∀ k, k <> Gamma -> k <> Beta -> b_arr b' k = b_arr b2 k)) /\
    (~ (normalization_flag (cfg f) = Layer_norm /\ normalization_flag (cfg cp) = Layer_norm) -> layer_norm r = layer_norm cp).
Proof. intros f cp H1. apply paste_w_gen. apply H1. Qed.
Print Assumptions C77_paste_w.
Example C77_paste_w_case : ∃ f f2 r, fully_connected cfg_edge INR 1%R INR = Some f /\ fully_connected cfg_edge (λ _, 0%R) 0%R INR = Some f2 /\ paste_w_fcl f f2 = Some r /\ arr r Weights = arr f Weights /\ arr r Noise = arr f2 Noise.
Proof.
  destruct (C77_construction cfg_edge INR 1%R INR cfg_edge_ok) as (f & E & Ec & _ & Hs & _). destruct (C77_construction cfg_edge (λ _, 0%R) 0%R INR cfg_edge_ok) as (f2 & E2 & Ec2 & _ & Hs2 & _).
  destruct (C77_paste_w f f2) as (r & Er & _ & _ & Hk & Hn & _); [rewrite ?Ec, ?Ec2; done || apply cfg_edge_ok..|]. exists f, f2, r. split; [done|]. split; [done|]. split; [done|]. split; [by apply Hk|]. apply Hn. intros [[] _].
Qed.
(** It does not check the sizes: a smaller target is overrun.  *)
Theorem C77_paste_w_size_refuted : ∀ f cp, admissible (cfg f) -> shaped f -> shaped cp -> input (cfg cp) * output (cfg cp) < input (cfg f) * output (cfg f) -> paste_w_fcl f cp = None.
Proof.
  intros f cp H1 (S1 & _) (S2 & _) Hl. destruct (S1 Weights) as (v & Ev & Lv); [done|]. destruct (S2 Weights) as (w & Ew & Lw); [done|]. apply (paste_w_short f cp v w); try done; [apply H1|]. cbn [fsize] in Lw. lia.
Qed.
Print Assumptions C77_paste_w_size_refuted.
Example C77_paste_w_size_case : ∃ f f2, fully_connected (mk_config 3 2 0 No_dropout true 0 1 No_norm Gradient Fully true) INR 1%R INR = Some f /\ fully_connected cfg_norm INR 1%R INR = Some f2 /\ paste_w_fcl f f2 = None.
Proof.
  assert (A : admissible (mk_config 3 2 0 No_dropout true 0 1 No_norm Gradient Fully true)). { split; [|done]. unfold config_ok. cbn. repeat split; try lia; try lra; try done. }
  destruct (C77_construction cfg_norm INR 1%R INR cfg_norm_ok) as (f2 & E2 & Ec2 & _ & Hs2 & _). destruct (C77_construction _ INR 1%R INR A) as (f & E & Ec & _ & Hs & _).
  exists f, f2. split; [done|]. split; [done|]. apply C77_paste_w_size_refuted; rewrite ?Ec, ?Ec2; try done. cbn. lia.
Qed.

(** A reset keeps the configuration, the parameters and the optimizer values, erases the partial derivatives and the values of the current
    pass, draws new noise and, with edge popup, chooses the used outputs from the order of the scores.  *)
Theorem C77_reset : ∀ f g, admissible (cfg f) -> shaped f -> ∃ r, reset_fcl sort_scores f g = Some r /\ cfg r = cfg f /\ k_percentage r = k_percentage f /\ shaped r /\
  (∀ k, parameter k \/ optimizer k -> arr r k = arr f k) /\
  (∀ k, derivative k -> has (cfg f) k -> k <> DScores o0 \/ training_mode (cfg f) = Edge_popup -> arr r k = Some (repeat 0%R (fsize (cfg f) k))) /\
  (∀ k, has (cfg f) k -> scratch k -> arr r k = Some (repeat (mark k) (fsize (cfg f) k))) /\ (noisy (cfg f) = true -> new_noise (cfg f) g r) /\
  edge_after sort_scores f r /\ (∀ ind, training_mode (cfg f) = Edge_popup -> indices r = Some ind -> ind ≡ₚ seq 0 (input (cfg f) * output (cfg f))) /\ norm_after false (layer_norm f) (layer_norm r).
Proof.
  intros f g Hc Hs. pose proof (sort_scores_ok f Hc Hs) as Hso. destruct (reset_fcl_ok f g sort_scores Hc Hs Hso) as (r & E & H1 & H2 & H3 & H4 & H5 & _ & H6 & H7 & H8 & H9).
  exists r. repeat (split; [done|]). split; [|split; [done|split; [|by apply norm_after_of]]].
  - intros Hn. destruct (H7 Hn) as (v & b & Ev & Eb & Hfr). by eapply new_noise_of.
  - intros ind e Ei. destruct H8 as [_ H8]. destruct (H8 e) as (s & ind' & act & Es & Eso & Ei' & _). destruct (Hso e s Es) as (ind2 & E2 & Hp). congruence.
Qed.
Print Assumptions C77_reset.
Example C77_reset_case : ∃ f r, fully_connected cfg_edge INR 1%R INR = Some f /\ reset_fcl sort_scores f INR = Some r /\ arr r Scores = arr f Scores /\ arr r (DScores o0) = Some [0%R; 0%R; 0%R; 0%R] /\ arr r Dropout_temp = Some [1%R; 1%R].
Proof.
  destruct (C77_construction cfg_edge INR 1%R INR cfg_edge_ok) as (f & E & Ec & _ & Hs & _). destruct (C77_reset f INR) as (r & Er & _ & _ & _ & H4 & H5 & H6 & _); [rewrite Ec; apply cfg_edge_ok|done|]. rewrite Ec in H5, H6.
  exists f, r. split; [done|]. split; [done|]. split; [apply H4; left; done|]. split; [rewrite H5; [done|done|left; done|right; done]|]. rewrite H6; [|done|by apply scratch_cases]. unfold mark. rewrite decide_True by tauto. done.
Qed.
(** But a layer that runs edge popup while it is trained with gradient descent (or not at all) keeps the partial derivatives of its
    scores.  *)
Theorem C77_reset_scores_refuted : ∀ f g, admissible (cfg f) -> shaped f -> feed_forward_flag (cfg f) = Edge_popup_ff -> training_mode (cfg f) <> Edge_popup ->
  ∃ r v, reset_fcl sort_scores f g = Some r /\ arr f (DScores o0) = Some v /\ arr r (DScores o0) = Some v.
Proof.
  intros f g Hc Hs Hff Ht. destruct (reset_fcl_ok f g sort_scores Hc Hs (sort_scores_ok f Hc Hs)) as (r & E & _ & _ & _ & _ & _ & H & _). destruct Hs as (X & _). destruct (X (DScores o0)) as (v & Ev & _); [left; done|].
  exists r, v. rewrite H by done. done.
Qed.
Print Assumptions C77_reset_scores_refuted.
Example C77_reset_scores_case : ∃ f, fully_connected (mk_config 2 2 0 No_dropout true 0 1 No_norm Gradient Edge_popup_ff true) INR 1%R INR = Some f /\ shaped f /\ admissible (cfg f).
Proof.
  assert (A : admissible (mk_config 2 2 0 No_dropout true 0 1 No_norm Gradient Edge_popup_ff true)). { split; [|done]. unfold config_ok. cbn. repeat split; try lia; try lra; try done. }
  destruct (C77_construction _ INR 1%R INR A) as (f & E & Ec & _ & Hs & _). exists f. by rewrite Ec.
Qed.

(** The reset that is to leave the partial derivatives leaves all of them, and the connections.  *)
Theorem C77_reset_except_derivatives : ∀ f g, admissible (cfg f) -> shaped f -> ∃ r, reset_fcl_except_partial_derivatives f g = Some r /\ cfg r = cfg f /\ k_percentage r = k_percentage f /\ shaped r /\
  (∀ k, kept k -> arr r k = arr f k) /\ (∀ k, has (cfg f) k -> scratch k -> arr r k = Some (repeat (mark k) (fsize (cfg f) k))) /\ (noisy (cfg f) = true -> new_noise (cfg f) g r) /\
  active r = active f /\ indices r = indices f /\ norm_after true (layer_norm f) (layer_norm r).
Proof.
  intros f g Hc Hs. destruct (reset_except_ok f g Hc Hs) as (r & E & H1 & H2 & H3 & H4 & H5 & H6 & H7 & H8 & H9). exists r. repeat (split; [done|]). split; [|split; [done|split; [done|by apply norm_after_of]]].
  intros Hn. destruct (H6 Hn) as (v & b & Ev & Eb & Hfr). by eapply new_noise_of.
Qed.
Print Assumptions C77_reset_except_derivatives.
Example C77_reset_except_case : ∃ f r, fully_connected cfg_norm INR 1%R INR = Some f /\ reset_fcl_except_partial_derivatives f INR = Some r /\ new_noise cfg_norm INR r.
Proof.
  destruct (C77_construction cfg_norm INR 1%R INR cfg_norm_ok) as (f & E & Ec & _ & Hs & _). destruct (C77_reset_except_derivatives f INR) as (r & Er & _ & _ & _ & _ & _ & Hn & _); [rewrite Ec; apply cfg_norm_ok|done|]. rewrite Ec in Hn. exists f, r. split; [done|]. split; [done|]. by apply Hn.
Qed.

(** The reset without dw and db keeps those, but erases the partial derivatives of the layer normalization and of the scores.  *)
Theorem C77_reset_without_dwdb_refuted : ∀ f g, admissible (cfg f) -> shaped f -> ∃ r, reset_fcl_without_dwdb sort_scores f g = Some r /\ shaped r /\
  (∀ k, kept k -> k <> DScores o0 -> arr r k = arr f k) /\ (∀ k, has (cfg f) k -> scratch k -> arr r k = Some (repeat (mark k) (fsize (cfg f) k))) /\
  (training_mode (cfg f) = Edge_popup -> arr r (DScores o0) = Some (repeat 0%R (input (cfg f) * output (cfg f)))) /\ edge_after sort_scores f r /\ norm_after false (layer_norm f) (layer_norm r).
Proof.
  intros f g Hc Hs. destruct (reset_without_ok f g sort_scores Hc Hs (sort_scores_ok f Hc Hs)) as (r & E & H1 & H2 & H3 & H4 & H5 & H6 & H7 & H8 & H9 & H10). exists r. repeat (split; [done|]). by apply norm_after_of.
Qed.
Print Assumptions C77_reset_without_dwdb_refuted.
Example C77_reset_without_dwdb_case : ∃ f r b, fully_connected cfg_norm INR 1%R INR = Some f /\ reset_fcl_without_dwdb sort_scores f INR = Some r /\ layer_norm r = Some b /\ b_arr b (DGamma o0) = Some [0%R; 0%R].
Proof.
  destruct (C77_construction cfg_norm INR 1%R INR cfg_norm_ok) as (f & E & Ec & _ & Hs & _). destruct (C77_reset_without_dwdb_refuted f INR) as (r & Er & _ & _ & _ & _ & _ & Hn); [rewrite Ec; apply cfg_norm_ok|done|].
  destruct Hs as (_ & _ & _ & _ & _ & X & _). rewrite Ec in X. destruct (X eq_refl) as (b & Eb & _ & _ & Vb). rewrite Eb in Hn. destruct (layer_norm r) as [b'|] eqn:Er'; [|destruct Hn]. destruct Hn as (_ & _ & _ & _ & _ & _ & Hd & _).
  exists f, r, b'. split; [done|]. split; [done|]. split; [done|]. rewrite Hd by tauto. rewrite Vb. done.
Qed.

(** Changing the training mode of a layer changes a flag but allocates nothing.  A layer built for gradient descent and switched to edge
    popup dereferences a NULL pointer at the next reset, and so does a layer built for edge popup and switched to gradient descent.  *)
Theorem C77_switch_to_popup_refuted : ∀ f k g f', shaped f -> feed_forward_flag (cfg f) = Fully -> training_mode (cfg f) <> Edge_popup -> set_training_edge_popup k f = Some f' -> reset_fcl sort_scores f' g = None.
Proof. intros. by eapply popup_after_gd. Qed.
Print Assumptions C77_switch_to_popup_refuted.
Theorem C77_switch_to_gd_refuted : ∀ f g, admissible (cfg f) -> shaped f -> training_mode (cfg f) = Edge_popup -> reset_fcl sort_scores (set_training_gd f) g = None.
Proof. intros f g H Hs. apply gd_after_popup; [done|apply H]. Qed.
Print Assumptions C77_switch_to_gd_refuted.
(** A layer with layer normalization can be switched to edge popup, and then a copy of it ends the program.  *)
Theorem C77_switch_norm_refuted : ∀ f k ws nw g f', normalization_flag (cfg f) = Layer_norm -> set_training_edge_popup k f = Some f' -> copy_fcl f' ws nw g = None.
Proof. intros. by eapply popup_norm_copy. Qed.
Print Assumptions C77_switch_norm_refuted.
Example C77_switch_case : ∃ f f', fully_connected cfg_norm INR 1%R INR = Some f /\ set_training_edge_popup (1 / 2)%R f = Some f' /\ reset_fcl sort_scores f' INR = None /\ copy_fcl f' INR 1%R INR = None.
Proof.
  destruct (C77_construction cfg_norm INR 1%R INR cfg_norm_ok) as (f & E & Ec & _ & Hs & _). destruct (set_training_edge_popup (1 / 2)%R f) as [f'|] eqn:Es.
  - exists f, f'. split; [done|]. split; [done|]. split; [eapply C77_switch_to_popup_refuted; [exact Hs|by rewrite Ec|by rewrite Ec|exact Es]|]. eapply C77_switch_norm_refuted; [|exact Es]. by rewrite Ec.
  - unfold set_training_edge_popup in Es. rewrite !decide_False in Es by lra. done.
Qed.
Example C77_switch_to_gd_case : ∃ f, fully_connected cfg_edge INR 1%R INR = Some f /\ reset_fcl sort_scores (set_training_gd f) INR = None.
Proof. destruct (C77_construction cfg_edge INR 1%R INR cfg_edge_ok) as (f & E & Ec & _ & Hs & _). exists f. split; [done|]. apply C77_switch_to_gd_refuted; [rewrite Ec; apply cfg_edge_ok|done|by rewrite Ec]. Qed.

(** A layer kept for feed forward only: its reset for feed forward succeeds, keeps every parameter and clears the activations; its copy keeps
    every parameter the copy has room for; the ordinary reset writes through NULL.  *)
Theorem C77_feed_forward_only : ∀ f, admissible (cfg f) -> shaped f ->
  (∀ g, ∃ r, reset_fcl_only_for_ff (make_only_for_ff f) g = Some r /\ cfg r = cfg (make_only_for_ff f) /\ active r = active f /\ indices r = indices f /\
     (∀ k, parameter k -> arr r k = arr f k) /\ (∀ k, k = Pre_activation \/ k = Post_activation \/ k = Post_normalization -> has (cfg f) k -> arr r k = Some (repeat 0%R (output (cfg f)))) /\
     (noisy (cfg f) = true -> new_noise (cfg f) g r) /\ norm_after false (layer_norm f) (layer_norm r)) /\
  (∀ ws nw g, ∃ cp, copy_fcl (make_only_for_ff f) ws nw g = Some cp /\ cfg cp = cfg (make_only_for_ff f) /\ active cp = active f /\ (∀ k, parameter k -> (k = Scores -> feed_forward_flag (cfg f) = Edge_popup_ff) -> arr cp k = arr f k)).
Proof.
  intros f Hc Hs. split.
  - intros g. destruct (ff_reset f g Hc Hs) as (r & E & H1 & H2 & H3 & H4 & H5 & H6 & H7). exists r. repeat (split; [done|]). split; [|by apply norm_after_of]. intros Hn. destruct (H6 Hn) as (v & b & Ev & Eb & Hfr). by eapply new_noise_of.
  - intros ws nw g. destruct (copy_fcl_gen (make_only_for_ff f) ws nw g (ff_adm f Hc) (ff_usable f Hs)) as (fr & cp & _ & E & H1 & _ & H3 & H4 & _ & H6 & _). exists cp. split; [done|]. split; [done|].
    destruct (ff_cfg f) as (_ & _ & _ & _ & _ & C6 & C7 & _ & _ & A1 & _). split; [congruence|]. intros k Hp Hsc.
    destruct (decide (has (cfg (make_only_for_ff f)) k)) as [h|h].
    + assert (has (cfg f) k). { destruct k; try destruct Hp; cbn [has] in h |- *; rewrite ?C6, ?C7 in h; try done. left. by apply Hsc. }
      rewrite H6; [apply ff_keeps_at; destruct k; done|left; done|done|]. rewrite ff_keeps_at by (destruct k; done). by apply has_some.
    + destruct H3 as (_ & Y & _). rewrite Y by (by rewrite H1). destruct Hs as (_ & X & _). rewrite X; [done|]. intros h2. apply h. destruct k; try destruct Hp; cbn [has] in h2 |- *; rewrite ?C6, ?C7; try done. left. by apply Hsc.
Qed.
Print Assumptions C77_feed_forward_only.
Theorem C77_feed_forward_only_reset_refuted : ∀ f g, reset_fcl sort_scores (make_only_for_ff f) g = None.
Proof. intros. apply reset_after_ff. Qed.
Print Assumptions C77_feed_forward_only_reset_refuted.
Example C77_feed_forward_only_case : ∃ f r, fully_connected cfg_edge INR 1%R INR = Some f /\ reset_fcl_only_for_ff (make_only_for_ff f) INR = Some r /\ arr r Weights = arr f Weights /\ dropout_flag (cfg r) = Dropout_test.
Proof.
  destruct (C77_construction cfg_edge INR 1%R INR cfg_edge_ok) as (f & E & Ec & _ & Hs & _). destruct (C77_feed_forward_only f) as [H _]; [rewrite Ec; apply cfg_edge_ok|done|]. destruct (H INR) as (r & Er & H1 & _ & _ & Hk & _). exists f, r. split; [done|]. split; [done|]. split; [by apply Hk|].
  rewrite H1. unfold make_only_for_ff. cbv zeta. cbn. rewrite Ec. rewrite decide_True by done. done.
Qed.

(** Switching a layer that drops outputs to inference and back gives the same layer.  *)
Theorem C77_inference_train : ∀ f, dropout_flag (cfg f) <> Dropout_test -> train_fcl (inference_fcl f) = f.
Proof.
  intros f H. unfold inference_fcl, train_fcl. destruct (decide (dropout_flag (cfg f) = Dropout)) as [e|e].
  - rewrite (decide_True (P := dropout_flag (cfg (with_cfg _ _ _ _ _ _ _)) = Dropout_test)) by done. destruct f as [c ? ? ? ? ?]. unfold with_cfg. cbn in *. destruct c; cbn in *. rewrite e. do 2 f_equal. lra.
  - by rewrite decide_False.
Qed.
Print Assumptions C77_inference_train.
Example C77_inference_train_case : ∃ f, fully_connected cfg_edge INR 1%R INR = Some f /\ dropout_flag (cfg (inference_fcl f)) = Dropout_test /\ train_fcl (inference_fcl f) = f.
Proof.
  destruct (C77_construction cfg_edge INR 1%R INR cfg_edge_ok) as (f & E & Ec & _). exists f. split; [done|]. split; [|apply C77_inference_train; by rewrite Ec].
  unfold inference_fcl. rewrite Ec. rewrite decide_True by done. done.
Qed.
