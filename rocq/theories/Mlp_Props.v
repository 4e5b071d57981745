(** C52: training a network of dense layers. *)
From Coquelicot Require Import Coquelicot.
From Verif Require Import NumLib NumLib2 Grad Deriv Act_Model Act_Props Loss_Model Loss_Props Softmax_Model Softmax_Props FC_Model FC_Spec FC_Proofs FC_Props Attn_Model Vec_Model Vec_Proofs Vec_Props Mlp_Model Mlp_Spec Mlp_Proofs Mlp_Bp Mlp_Bp2 Mlp_Grad.
Open Scope R_scope.

(** reset_fcl prepares a layer for a pass: it is [ready] and its gradients are zero, its parameters untouched *)
Theorem C52_reset : forall f, shaped f -> exists f', reset_fcl f = Some f' /\ ready f' /\
  dw f' = replicate (fo f * fi f) 0 /\ db f' = replicate (fo f) 0 /\ (dflag f <> NO_DROPOUT -> dtemp f' = replicate (fo f) 1) /\
  fi f' = fi f /\ fo f' = fo f /\ weights f' = weights f /\ biases f' = biases f /\ act f' = act f /\ dflag f' = dflag f /\ thr f' = thr f /\ mode f' = mode f.
Proof.
  intros f Hs. pose proof Hs as (L1 & L2 & L3 & L4 & L5 & L6 & L7 & L8 & L9 & L10 & L11 & L12 & Ha & Hd & Hn & Hm). unfold reset_fcl.
  rewrite (fill_run 0 (fo f) (pre f)) by done. cbn [mbind option_bind].
  assert (Hb : exists b, (if decide (act f <> NO_ACTIVATION) then fill 0 (fo f) (post f) else Some (post f)) = Some b /\ (act f <> NO_ACTIVATION -> length b = fo f)).
  { destruct (decide (act f <> NO_ACTIVATION)); [|by exists (post f)]. rewrite fill_run by auto. eexists. split; [done|]. intros. apply replicate_length. }
  destruct Hb as (b & -> & Hb). cbn [mbind option_bind]. rewrite Hn. rewrite (decide_False (P := _ \/ _)) by (intros [? | ?]; discriminate). cbn [mbind option_bind].
  rewrite (fill_run 0 (fo f) (db f)) by done. cbn [mbind option_bind].
  assert (Hmk : exists m e, (if decide (dflag f <> NO_DROPOUT) then fill 1 (fo f) (mask f) else Some (mask f)) = Some m /\
    (if decide (dflag f <> NO_DROPOUT) then fill 1 (fo f) (dtemp f) else Some (dtemp f)) = Some e /\ (dflag f <> NO_DROPOUT -> m = replicate (fo f) 1 /\ e = replicate (fo f) 1)).
  { destruct (decide (dflag f <> NO_DROPOUT)) as [H|H]; [|by exists (mask f), (dtemp f)]. destruct (L7 H). rewrite !fill_run by done. by eexists _, _. }
  destruct Hmk as (m & e & -> & -> & Hmk). cbn [mbind option_bind].
  rewrite (fill_run 0 (fo f) (temp f)), (fill_run 0 (fo f) (temp3 f)), (fill_run 0 (fi f) (err2 f)) by done. cbn [mbind option_bind].
  rewrite (fill_run 0 (fi f * fo f) (dw f)) by lia. cbn [mbind option_bind]. eexists. split; [done|]. rewrite (Nat.mul_comm (fi f)).
  unfold ready, shaped. cbn. rewrite !replicate_length. split_and!; try done; try (intros H; by destruct (Hmk H) as [-> ->]).
  intros H. destruct (Hmk H) as [-> ->]. by rewrite !replicate_length.
Qed.

(** the forward pass computes the network: every layer's affine map, activation and dropout in order.  Dropout
    units are drawn per layer; in test mode hidden layers are scaled by the stored factor. *)
Theorem C52_forward : forall nf draw x fs, Forall ready fs -> chained (length x) fs -> fs <> [] ->
  (forall f, f ∈ fs -> dflag f = DROPOUT_TEST -> act f <> NO_ACTIVATION) ->
  (forall f, list.last fs = Some f -> dflag f <> DROPOUT_TEST) ->
  exists fs', model_ff nf draw x fs = Some fs' /\ model_output fs' = net (layers_of draw 0 fs) x.
Proof.
  intros nf draw x fs Hr Hc Hne Ht Hl. destruct (model_ff_run nf draw x fs Hr) as (fs' & E & Hran); [apply list.Forall_forall; exact Ht|done|].
  exists fs'. split; [done|]. eapply ran_last; try done. eapply list.Forall_impl; [exact Hr|]. by intros ? [? _].
Qed.

(** the backward pass with output error e adds to every weight and bias error the partial derivative of <e, output>,
    and returns the partial derivatives with respect to the inputs; parameters do not change *)
Theorem C52_backward_is_the_gradient : forall nf nb draw x fs e, Forall ready fs -> chained (length x) fs -> fs <> [] ->
  (forall f, f ∈ fs -> dflag f <> DROPOUT_TEST) -> length e = output_dimension fs -> off_kinks (layers_of draw 0 fs) x ->
  let ls := layers_of draw 0 fs in let n := output_dimension fs in
  exists fs' r fs'', model_ff nf draw x fs = Some fs' /\ model_bp nb x fs' e = Some (r, fs'') /\ length fs'' = length fs /\ length r = length x /\
    (forall i, (i < length x)%nat -> has_partial (fun x => inner n e (net ls x)) x i (el r i)) /\
    forall j f, fs !! j = Some f -> exists f'', fs'' !! j = Some f'' /\ kept f f'' /\
      let l := layer_of (draw j) f in
      (forall i, (i < fo f * fi f)%nat -> exists d, el (dw f'') i = el (dw f) i + d /\
         has_partial (fun W => inner n e (net (<[j := with_W l W]> ls) x)) (weights f) i d) /\
      (if decide (mode f = FREEZE_BIASES) then db f'' = db f else
       forall i, (i < fo f)%nat -> exists d, el (db f'') i = el (db f) i + d /\
         has_partial (fun b => inner n e (net (<[j := with_b l b]> ls) x)) (biases f) i d).
Proof.
  intros nf nb draw x fs e Hr Hc Hne Ht He Hk ls n.
  assert (Htr : Forall training fs) by (apply list.Forall_forall; exact Ht).
  destruct (model_ff_run nf draw x fs Hr) as (fs' & E & Hran); [eapply list.Forall_impl; [exact Htr|]; intros f H H'; by destruct (H H')|done|].
  destruct (model_bp_run nb draw x fs fs' e Hr Htr Hc Hne He Hran) as (fs'' & Eb & Hg).
  assert (Hn : odim_fcl (length x) fs = n). { unfold n, odim_fcl, output_dimension. destruct (list.last fs) eqn:El; [done|]. by apply last_None in El. }
  exists fs', (err ls x e), fs''. split; [done|]. split; [done|]. split; [|split; [|split]].
  - clear -Hg. revert Hg. generalize 0%nat. revert x fs''. induction fs as [|f fs IH]; intros x [|g fs''] k Hg; cbn in Hg; try done. cbn. f_equal. by eapply IH, Hg.
  - apply length_err; [by rewrite He, Hn|done].
  - intros i Hi. unfold has_partial. apply slope_inner. rewrite <- Hn. by apply input_slope.
  - intros j f Hj. destruct (grown_gradient draw fs 0 (length x) x e fs'' Hg) with (j := j) (f := f) as (f'' & Ej & Hkp & HW & Hb); [eapply list.Forall_impl; [exact Hr|]; by intros ? [? _]|done..|].
    exists f''. split; [done|]. split; [done|]. cbn [Nat.add] in HW, Hb. fold ls in HW, Hb. rewrite Hn in HW, Hb. split.
    + intros i Hi. destruct (HW i Hi) as (d & Ed & Hd). exists d. split; [done|]. by apply slope_inner.
    + destruct (decide _); [done|]. intros i Hi. destruct (Hb i Hi) as (d & Ed & Hd). exists d. split; [done|]. by apply slope_inner.
Qed.

(** the error array is the derivative of the weighted loss with respect to the output *)
Lemma loss_run s y target n : (0 < n)%nat -> length y = n -> length target = n -> length (earr s) = n -> (forall al, alpha s = Some al -> length al = n) ->
  (forall i, (i < n)%nat -> loss_ok s (el y i) (el target i)) ->
  exists err0 e, compute_model_error s y target n = Some err0 /\ weight_error s target err0 n = Some e /\ length e = n /\
    forall i, (i < n)%nat -> derivable_pt_lim (fun p => loss_weight s (el target i) i * loss_term s p (el target i)) (el y i) (el e i).
Proof.
  intros Hn0 Hy Ht He Hal Hok.
  assert (H0 : exists err0, compute_model_error s y target n = Some err0 /\ length err0 = n /\
    forall i, (i < n)%nat -> derivable_pt_lim (fun p => loss_term s p (el target i)) (el y i) (el err0 i)).
  { assert (Hmap2 : forall f g, (forall i, (i < n)%nat -> f (el y i) (el target i) = Some (g (el y i) (el target i))) ->
      (forall i, (i < n)%nat -> derivable_pt_lim (fun p => loss_term s p (el target i)) (el y i) (g (el y i) (el target i))) ->
      exists err0, map2_array f y target (earr s) n = Some err0 /\ length err0 = n /\ forall i, (i < n)%nat -> derivable_pt_lim (fun p => loss_term s p (el target i)) (el y i) (el err0 i)).
    { intros f g Hf Hg. destruct (map2_filled f g y target (earr s) n) as (o & Eo & Lo & Ho & _); [lia..|done|]. exists o. split; [done|]. split; [congruence|]. intros i Hi. rewrite Ho by done. by apply Hg. }
    unfold compute_model_error.
    destruct (decide (flag s = NO_LOSS)) as [F|N0].
    { destruct (copy_run target (earr s) 0 n) as (o & Eo & Lo & Ho & _); [lia..|]. exists o. split; [done|]. split; [congruence|]. intros i Hi. specialize (Ho i Hi). cbn [Nat.add] in Ho. rewrite Ho.
      eapply dlim_ext; [|eapply dlim_val; [|apply dlim_scal, dlim_id]]. { intros p. unfold loss_term. by rewrite decide_True. } cbn beta. lra. }
    destruct (decide (flag s = MSE_LOSS)) as [F|N1].
    { apply (Hmap2 _ derivative_mse); [done|]. intros i Hi. eapply dlim_ext; [|apply C23_mse]. intros p. unfold loss_term, mse. rewrite (decide_False (P := flag s = _)) by done. by rewrite (decide_True (P := flag s = _)). }
    destruct (decide (flag s = CROSS_ENTROPY_LOSS)) as [F|N2].
    { assert (Hp : forall i, (i < n)%nat -> 0 < el y i < 1).
      { intros i Hi. destruct (Hok i Hi) as [H|[H|[[_ H]|[[H _]|[[H _]|[H _]]]]]]; [rewrite F in H; discriminate..|done|rewrite F in H; discriminate|rewrite F in H; discriminate|rewrite F in H; discriminate]. }
      apply (Hmap2 _ (fun p t => default 0 (derivative_cross_entropy p t))).
      - intros i Hi. destruct (C23_cross_entropy (el y i) (el target i) (Hp i Hi)) as (_ & d & -> & _). done.
      - intros i Hi. destruct (C23_cross_entropy (el y i) (el target i) (Hp i Hi)) as (H1 & d & -> & Hd). cbn.
        eapply (dlim_between _ (fun p => default 0 (cross_entropy p (el target i))) _ _ 0 1); [apply (Hp i Hi)| |exact Hd]. intros p Hpp. rewrite H1 by done. unfold loss_term. rewrite !(decide_False (P := flag s = _)) by done. by rewrite (decide_True (P := flag s = _)). }
    destruct (decide (flag s = FOCAL_LOSS)) as [F|N3].
    { assert (Hp : forall i, (i < n)%nat -> 0 < el y i < 1).
      { intros i Hi. destruct (Hok i Hi) as [H|[H|[[_ H]|[[H _]|[[H _]|[H _]]]]]]; [rewrite F in H; discriminate..|done|rewrite F in H; discriminate|rewrite F in H; discriminate|rewrite F in H; discriminate]. }
      apply (Hmap2 _ (fun p t => derivative_focal_loss p t (gam s))); [done|]. intros i Hi. destruct (C23_focal (el y i) (el target i) (gam s) (Hp i Hi)) as (_ & Hd).
      eapply (dlim_between _ (fun p => focal_loss p (el target i) (gam s)) _ _ 0 1); [apply (Hp i Hi)| |exact Hd]. intros p Hpp. destruct (C23_focal p (el target i) (gam s) Hpp) as (-> & _). unfold loss_term. rewrite !(decide_False (P := flag s = _)) by done. by rewrite (decide_True (P := flag s = _)). }
    destruct (decide (flag s = HUBER1_LOSS)) as [F|N4].
    { assert (forall i, (i < n)%nat -> False) as Hno. { intros i Hi. destruct (Hok i Hi) as [H|[H|[[[H|H] _]|[[H _]|[[H _]|[H _]]]]]]; rewrite F in H; discriminate. }
      apply (Hmap2 _ (fun _ _ => 0)); intros i Hi; by destruct (Hno i Hi). }
    destruct (decide (flag s = HUBER2_LOSS)) as [F|N5].
    { apply (Hmap2 _ (fun p t => derivative_modified_huber_loss p t (th1 s) (th2 s))); [done|]. intros i Hi.
      assert (Hp : el target i * el y i <> -1). { destruct (Hok i Hi) as [H|[H|[[[H|H] _]|[[H Hp]|[[H _]|[H _]]]]]]; [rewrite F in H; discriminate..|done|rewrite F in H; discriminate|rewrite F in H; discriminate]. }
      eapply dlim_ext; [|apply (C23_modified_huber (el y i) (el target i) (th1 s) (th2 s) Hp)]. intros p. unfold loss_term, modified_huber_loss. rewrite !(decide_False (P := flag s = _)) by done. rewrite (decide_True (P := flag s = HUBER2_LOSS)) by done.
      destruct (decide (el target i * p >= -1)); [|lra]. replace (p * el target i) with (el target i * p) by lra. destruct (decide (th1 s - el target i * p > 0)); [rewrite Rmax_right by lra|rewrite Rmax_left by lra]; lra. }
    destruct (decide (flag s = KL_DIVERGENCE_LOSS)) as [F|N6].
    { apply (Hmap2 _ derivative_kl_divergence); [done|]. intros i Hi.
      assert (Hp : 0 < el y i /\ 0 < el target i). { destruct (Hok i Hi) as [H|[H|[[[H|H] _]|[[H _]|[[H Hp]|[H _]]]]]]; [rewrite F in H; discriminate..|done|rewrite F in H; discriminate]. }
      eapply (dlim_gt _ (fun p => kl_divergence p (el target i)) _ _ 0); [apply Hp| |apply C23_kl_divergence; apply Hp]. intros p Hpp. unfold loss_term, kl_divergence.
      rewrite !(decide_False (P := flag s = _)) by done. rewrite (decide_True (P := flag s = KL_DIVERGENCE_LOSS)) by done. by rewrite !decide_False by lra. }
    destruct (decide (flag s = ENTROPY_LOSS)) as [F|N7].
    { destruct (map_filled derivative_entropy y (earr s) n) as (o & Eo & Lo & Ho & _); [lia..|]. exists o. split; [done|]. split; [congruence|]. intros i Hi. rewrite Ho by done.
      assert (Hp : 0 < el y i). { destruct (Hok i Hi) as [H|[H|[[[H|H] _]|[[H _]|[[H _]|[H Hp]]]]]]; [rewrite F in H; discriminate..|done]. }
      eapply dlim_ext; [|apply C23_entropy; exact Hp]. intros p. unfold loss_term, entropy. rewrite !(decide_False (P := flag s = _)) by done. lra. }
    by destruct (Hok 0%nat Hn0) as [H|[H|[[[H|H] _]|[[H _]|[[H _]|[H _]]]]]]. }
  destruct H0 as (err0 & E0 & L0 & H0). unfold weight_error, loss_weight. destruct (alpha s) as [al|] eqn:Eal.
  - specialize (Hal al eq_refl).
    destruct (loop_filled n (fun i err => o ← rd target i; if decide (o = 0%R) then Some err else a ← rd al i; e ← rd err i; wr err i (e * a)%R)
      (fun i => if decide (el target i = 0) then el err0 i else el err0 i * el al i) err0) as (o & Eo & Lo & Ho & _); [lia| |].
    { intros i l Hi Hl El. rewrite (rd_el target), (rd_el al), (rd_el l) by lia. cbn [mbind option_bind]. destruct (decide _); [|by rewrite El]. unfold wr. rewrite decide_True by lia. f_equal. rewrite <- El. symmetry. apply upd_self. }
    exists err0, o. split; [done|]. split; [done|]. split; [congruence|]. intros i Hi. rewrite Ho by done. destruct (decide (el target i = 0)).
    + eapply dlim_val; [|apply dlim_scal, (H0 i Hi)]. lra.
    + eapply dlim_val; [|apply dlim_scal, (H0 i Hi)]. lra.
  - exists err0, err0. split; [done|]. split; [done|]. split; [done|]. intros i Hi. eapply dlim_val; [|apply dlim_scal, (H0 i Hi)]. lra.
Qed.

Lemma slope_loss_c n Y s0 e d c (L : nat -> R -> R) : slope n Y s0 e d -> (forall i, (i < n)%nat -> derivable_pt_lim (L i) (el (Y s0) i) (c * el e i)) ->
  derivable_pt_lim (fun t => sumn n (fun i => L i (el (Y t) i))) s0 (c * d).
Proof.
  intros (y' & Hy & ->) HL. rewrite <- sumn_scal_l. eapply dlim_val; [|apply (dlim_sumn n (fun i t => L i (el (Y t) i)) s0 (fun i => c * el e i * y' i))].
  - apply sumn_ext. intros. lra.
  - intros i Hi. apply (dlim_comp (fun t => el (Y t) i) (L i)); [by apply Hy|by apply HL].
Qed.
(** one step with a loss whose derivative is c times the error array *)
Lemma step_run nf nb draw s x target fs c (L : nat -> R -> R) : Forall ready fs -> chained (length x) fs -> fs <> [] ->
  (forall f, f ∈ fs -> dflag f <> DROPOUT_TEST) -> off_kinks (layers_of draw 0 fs) x ->
  let ls := layers_of draw 0 fs in let n := output_dimension fs in let total y := sumn n (fun i => L i (el y i)) in
  (length (net ls x) = n -> exists err0 e, compute_model_error s (net ls x) target n = Some err0 /\ weight_error s target err0 n = Some e /\ length e = n /\
     forall i, (i < n)%nat -> derivable_pt_lim (L i) (el (net ls x) i) (c * el e i)) ->
  exists r fs'', ff_error_bp_model_once nf nb draw s x target fs = Some (r, fs'') /\ length fs'' = length fs /\ length r = length x /\
    (forall i, (i < length x)%nat -> has_partial (fun x => total (net ls x)) x i (c * el r i)) /\
    forall j f, fs !! j = Some f -> exists f'', fs'' !! j = Some f'' /\ kept f f'' /\
      let l := layer_of (draw j) f in
      (forall i, (i < fo f * fi f)%nat -> exists d, el (dw f'') i = el (dw f) i + d /\
         has_partial (fun W => total (net (<[j := with_W l W]> ls) x)) (weights f) i (c * d)) /\
      (if decide (mode f = FREEZE_BIASES) then db f'' = db f else
       forall i, (i < fo f)%nat -> exists d, el (db f'') i = el (db f) i + d /\
         has_partial (fun b => total (net (<[j := with_b l b]> ls) x)) (biases f) i (c * d)).
Proof.
  intros Hr Hc Hne Ht Hk ls n total HL.
  assert (Htr : Forall training fs) by (apply list.Forall_forall; exact Ht).
  assert (Hsh : Forall shaped fs) by (eapply list.Forall_impl; [exact Hr|]; by intros ? [? _]).
  destruct (model_ff_run nf draw x fs Hr) as (fs' & E & Hran); [eapply list.Forall_impl; [exact Htr|]; intros f H H'; by destruct (H H')|done|].
  assert (Hlast : forall f, list.last fs = Some f -> dflag f <> DROPOUT_TEST) by (intros f Hf; apply Ht; by apply last_Some_elem_of).
  destruct (ran_last draw fs 0 x fs' Hran Hsh Hlast Hne) as [Eo Ed].
  assert (Hn : odim_fcl (length x) fs = n). { unfold n, odim_fcl, output_dimension. destruct (list.last fs) eqn:El; [done|]. by apply last_None in El. }
  assert (Ln : length (net ls x) = n).
  { rewrite <- Hn. unfold ls. generalize 0%nat. clear. revert x. assert (forall n x k, length x = n -> length (net (layers_of draw k fs) x) = odim_fcl n fs) as H; [|intros; by apply H].
    induction fs as [|f fs IH]; intros n x k Hx; [done|]. cbn [layers_of net]. rewrite odim_cons. apply IH. by rewrite length_apply. }
  destruct (HL Ln) as (err0 & e & E1 & E2 & Le & HL').
  destruct (model_bp_run nb draw x fs fs' e Hr Htr Hc Hne Le Hran) as (fs'' & Eb & Hg).
  assert (Hres : ff_error_bp_model_once nf nb draw s x target fs = Some (err ls x e, fs'')).
  { unfold ff_error_bp_model_once. rewrite E. cbn [mbind option_bind]. rewrite Ed, Eo. fold n ls. rewrite E1. cbn [mbind option_bind]. rewrite E2. cbn [mbind option_bind]. done. }
  exists (err ls x e), fs''. split; [done|]. split; [|split; [|split]].
  - clear -Hg. revert Hg. generalize 0%nat. revert x fs''. induction fs as [|f fs IH]; intros x [|g fs''] k Hg; cbn in Hg; try done. cbn. f_equal. by eapply IH, Hg.
  - apply length_err; [by rewrite Le, Hn|done].
  - intros i Hi. unfold has_partial. eapply slope_loss_c; [rewrite <- Hn; by apply input_slope|]. rewrite upd_self. exact HL'.
  - intros j f Hj. destruct (grown_gradient draw fs 0 (length x) x e fs'' Hg) with (j := j) (f := f) as (f'' & Ej & Hkp & HW & Hb); [done..|].
    exists f''. split; [done|]. split; [done|]. cbn [Nat.add] in HW, Hb. fold ls in HW, Hb. rewrite Hn in HW, Hb.
    assert (Hls : ls !! j = Some (layer_of (draw j) f)).
    { unfold ls. clear -Hj. assert (forall k, layers_of draw k fs !! j = Some (layer_of (draw (k + j)%nat) f)) as H; [|apply (H 0%nat)]. revert j Hj. induction fs as [|g fs IH]; intros j Hj k; [done|]. destruct j; cbn in *; [injection Hj as ->; by rewrite Nat.add_0_r|]. rewrite (IH j Hj). by replace (S k + j)%nat with (k + S j)%nat by lia. }
    assert (Hid : <[j := layer_of (draw j) f]> ls = ls) by (by apply list_insert_id).
    split.
    + intros i Hi. destruct (HW i Hi) as (d & Ed' & Hd). exists d. split; [done|]. eapply slope_loss_c; [exact Hd|]. rewrite upd_self.
      change (with_W (layer_of (draw j) f) (weights f)) with (layer_of (draw j) f). rewrite Hid. exact HL'.
    + destruct (decide _); [done|]. intros i Hi. destruct (Hb i Hi) as (d & Ed' & Hd). exists d. split; [done|]. eapply slope_loss_c; [exact Hd|]. rewrite upd_self.
      change (with_b (layer_of (draw j) f) (biases f)) with (layer_of (draw j) f). rewrite Hid. exact HL'.
Qed.

(** one training step: forward, error, backward.  Every weight and bias error grows by the partial derivative of the
    total loss (MSE, cross entropy, focal, modified Huber, KL divergence, entropy, or a given linear error), each
    output weighted by its alpha where the target is not 0. *)
Theorem C52_training_step : forall nf nb draw s x target fs, Forall ready fs -> chained (length x) fs -> fs <> [] ->
  (forall f, f ∈ fs -> dflag f <> DROPOUT_TEST) -> off_kinks (layers_of draw 0 fs) x ->
  let ls := layers_of draw 0 fs in let n := output_dimension fs in
  (0 < n)%nat -> length target = n -> length (earr s) = n -> (forall al, alpha s = Some al -> length al = n) ->
  (forall i, (i < n)%nat -> loss_ok s (el (net ls x) i) (el target i)) ->
  exists r fs'', ff_error_bp_model_once nf nb draw s x target fs = Some (r, fs'') /\ length fs'' = length fs /\ length r = length x /\
    (forall i, (i < length x)%nat -> has_partial (fun x => total_loss s target n (net ls x)) x i (el r i)) /\
    forall j f, fs !! j = Some f -> exists f'', fs'' !! j = Some f'' /\ kept f f'' /\
      let l := layer_of (draw j) f in
      (forall i, (i < fo f * fi f)%nat -> exists d, el (dw f'') i = el (dw f) i + d /\
         has_partial (fun W => total_loss s target n (net (<[j := with_W l W]> ls) x)) (weights f) i d) /\
      (if decide (mode f = FREEZE_BIASES) then db f'' = db f else
       forall i, (i < fo f)%nat -> exists d, el (db f'') i = el (db f) i + d /\
         has_partial (fun b => total_loss s target n (net (<[j := with_b l b]> ls) x)) (biases f) i d).
Proof.
  intros nf nb draw s x target fs Hr Hc Hne Ht Hk ls n Hn Lt Le La Hok.
  destruct (step_run nf nb draw s x target fs 1 (fun i p => loss_weight s (el target i) i * loss_term s p (el target i)) Hr Hc Hne Ht Hk) as (r & fs'' & E & L1 & L2 & Hx & Hj).
  { intros Ln. destruct (loss_run s (net ls x) target n Hn Ln Lt Le La Hok) as (err0 & e & E0 & E1 & L & H). exists err0, e. split; [done|]. split; [done|]. split; [done|]. intros i Hi. eapply dlim_val; [|apply (H i Hi)]. lra. }
  exists r, fs''. split; [done|]. split; [done|]. split; [done|]. split.
  - intros i Hi. specialize (Hx i Hi). rewrite Rmult_1_l in Hx. exact Hx.
  - intros j f Hf. destruct (Hj j f Hf) as (f'' & E2 & Hkp & HW & Hb). exists f''. split; [done|]. split; [done|]. split.
    + intros i Hi. destruct (HW i Hi) as (d & Ed & Hd). exists d. split; [done|]. rewrite Rmult_1_l in Hd. exact Hd.
    + destruct (decide _); [done|]. intros i Hi. destruct (Hb i Hi) as (d & Ed & Hd). exists d. split; [done|]. rewrite Rmult_1_l in Hd. exact Hd.
Qed.

(** refuted for HUBER1_LOSS: what is added is minus the gradient of the Huber loss, so following it increases the loss *)
Theorem C52_huber_step_ascends_refuted : forall nf nb draw s x target fs, Forall ready fs -> chained (length x) fs -> fs <> [] ->
  (forall f, f ∈ fs -> dflag f <> DROPOUT_TEST) -> off_kinks (layers_of draw 0 fs) x ->
  let ls := layers_of draw 0 fs in let n := output_dimension fs in
  flag s = HUBER1_LOSS -> alpha s = None -> 0 < th1 s -> length target = n -> length (earr s) = n ->
  (forall i, (i < n)%nat -> Rabs (el (net ls x) i - el target i) <> th1 s) ->
  let total y := sumn n (fun i => huber_loss (el y i) (el target i) (th1 s)) in
  exists r fs'', ff_error_bp_model_once nf nb draw s x target fs = Some (r, fs'') /\
    forall j f, fs !! j = Some f -> exists f'', fs'' !! j = Some f'' /\
      let l := layer_of (draw j) f in
      forall i, (i < fo f * fi f)%nat -> exists d, el (dw f'') i = el (dw f) i + d /\
         has_partial (fun W => total (net (<[j := with_W l W]> ls) x)) (weights f) i (- d).
Proof.
  intros nf nb draw s x target fs Hr Hc Hne Ht Hk ls n Hfl Hal Hth Lt Le Hok total.
  destruct (step_run nf nb draw s x target fs (-1) (fun i p => huber_loss p (el target i) (th1 s)) Hr Hc Hne Ht Hk) as (r & fs'' & E & L1 & L2 & Hx & Hj).
  { intros Ln. fold ls n in Ln |- *. unfold compute_model_error, weight_error. rewrite Hfl, Hal.
    destruct (map2_filled (fun a b => Some (derivative_huber_loss a b (th1 s))) (fun a b => derivative_huber_loss a b (th1 s)) (net ls x) target (earr s) n) as (o & Eo & Lo & Ho & _); [lia..|done|].
    rewrite !(decide_False (P := HUBER1_LOSS = _)) by done. rewrite (decide_True (P := HUBER1_LOSS = HUBER1_LOSS)) by done. exists o, o. split; [done|]. split; [done|]. split; [congruence|]. intros i Hi. rewrite Ho by done.
    eapply dlim_val; [|apply (C23_huber_partial (el (net ls x) i) (el target i) (th1 s) Hth (Hok i Hi))]. lra. }
  exists r, fs''. split; [done|]. intros j f Hf. destruct (Hj j f Hf) as (f'' & E2 & Hkp & HW & Hb). exists f''. split; [done|]. intros l i Hi.
  destruct (HW i Hi) as (d & Ed & Hd). exists d. split; [done|]. eapply dlim_val; [|exact Hd]. lra.
Qed.

(** refuted in test mode: the output of a last layer with dropout is not written; after reset it reads all ones,
    whatever the input and the parameters *)
Theorem C52_test_mode_last_layer_refuted : forall nf draw x f, ready f -> length x = fi f -> dflag f = DROPOUT_TEST -> dtemp f = replicate (fo f) 1 ->
  exists f', model_ff nf draw x [f] = Some [f'] /\ model_output [f'] = replicate (fo f) 1.
Proof.
  intros nf draw x f Hr Hx Hd He. unfold model_ff. rewrite decide_False by (intros [_ ?]; done). unfold ff_cl_fcl. rewrite decide_True by done.
  unfold forward_layer. pose proof Hr as (Hs & Zp & _). destruct Hs as (L1 & L2 & L3 & L4 & L5 & L6 & L7 & L8 & L9 & L10 & L11 & L12 & Ha & Hdf & Hn & Hm).
  rewrite Zp. rewrite C24_forward_cleared by done. cbn [mbind option_bind].
  destruct (activate_run f (dense (fi f) (fo f) (weights f) (biases f) x)) as (b & Eb & _); [done|done|unfold dense; by rewrite map_length, seq_length|]. rewrite Eb. cbn [mbind option_bind].
  rewrite Hn. rewrite (decide_False (P := _ \/ _)) by (intros [? | ?]; discriminate). cbn [mbind option_bind]. rewrite Hd. rewrite (decide_False (P := DROPOUT_TEST = NO_DROPOUT)) by done.
  destruct (L7 ltac:(by rewrite Hd)) as [Lm Le]. destruct (C47_mask (draw 0%nat) (fo f) (mask f) (thr f)) as (m & Em & _); [lia|]. rewrite Em. cbn [mbind option_bind].
  rewrite (decide_False (P := DROPOUT_TEST = DROPOUT)) by done. cbn [mbind option_bind ff_rest]. eexists. split; [done|].
  unfold model_output, output_layer. cbn [list.last dflag set_ff dtemp]. rewrite Hd. by rewrite decide_True.
Qed.
(** refuted in test mode: a hidden layer with dropout and no activation hands over the (cleared) buffer of the next
    layer, so the next layer answers with its biases whatever the input *)
Theorem C52_test_mode_linear_layer_refuted : forall f1 f2, dflag f1 = DROPOUT_TEST -> act f1 = NO_ACTIVATION -> nrm f1 = NO_NORMALIZATION ->
  fo f1 = fi f2 -> length (dtemp f1) = fo f1 -> ready f2 -> (fi f2 <= fo f2)%nat -> dflag f2 = NO_DROPOUT -> act f2 = NO_ACTIVATION ->
  forall nf draw, exists f1' f2', ff_fcl_fcl nf draw f1 f2 = Some (f1', f2') /\ output_layer f2' = biases f2.
Proof.
  intros f1 f2 Hd Ha Hn Hf Le Hr Hle Hd2 Ha2 nf draw. unfold ff_fcl_fcl. rewrite decide_True by done. unfold hand_over. rewrite Hd, Ha, Hn.
  rewrite (decide_False (P := _ \/ _)) by (intros [? | ?]; discriminate). rewrite (decide_True (P := NO_ACTIVATION = NO_ACTIVATION)) by done. rewrite !(decide_False (P := DROPOUT_TEST = _)) by done.
  pose proof Hr as (Hs & Zp & _). rewrite Zp.
  destruct (map_filled (fun x => x * thr f1)%R (replicate (fo f2) 0) (dtemp f1) (fi f2)) as (e & Ee & Le' & He & _); [by rewrite replicate_length|lia|]. unfold mul_value. rewrite Ee. cbn [mbind option_bind fst snd].
  destruct (forward_run nf draw e f2 Hr) as (f2' & E2 & Hran); [lia|]. rewrite E2. cbn [mbind option_bind]. eexists _, _. split; [done|].
  pose proof (taken_run draw e f2 f2' Hs ltac:(by rewrite Hd2) Hran) as Ht.
  assert (Ho : output_layer f2' = taken f2').
  { pose proof (ran1_fields _ _ _ _ Hran) as (_ & _ & _ & _ & _ & _ & _ & Hn' & _). destruct Hs as (_ & _ & _ & _ & _ & _ & _ & _ & _ & _ & _ & _ & _ & _ & Hn0 & _).
    unfold output_layer, taken. rewrite Hn', Hn0. rewrite (decide_False (P := _ \/ _)) by (intros [? | ?]; discriminate). by rewrite (decide_False (P := NO_NORMALIZATION <> _)) by (unfold NO_NORMALIZATION; lia). }
  rewrite Ho, Ht. destruct Hs as (L1 & L2 & _). symmetry. apply list_map_seq; [done|]. intros i Hi. cbn [layer_of d_keep d_act d_out]. unfold keep_of. rewrite Hd2. rewrite !(decide_False (P := NO_DROPOUT = _)) by done.
  unfold activations, activation. cbn [layer_of d_act]. rewrite Ha2. rewrite !(decide_False (P := NO_ACTIVATION = _)) by done. unfold affine. cbn [layer_of d_in d_out d_W d_b]. rewrite el_dense by done.
  rewrite sumn_0; [lra|]. intros k Hkk. rewrite He by done. rewrite el_replicate. lra.
Qed.

(** refuted: without dropout the gradient of the normalization step is computed and then dropped; whatever its
    backward kernel returns, the input, weight and bias errors are the same *)
Theorem C52_normalization_gradient_dropped_refuted : forall nb nb' alias x f e r r' g g',
  (forall f a e o o', nb f a e o = Some o' -> length o' = length o) -> (forall f a e o o', nb' f a e o = Some o' -> length o' = length o) ->
  nrm f = LAYER_NORMALIZATION \/ nrm f = LOCAL_RESPONSE_NORMALIZATION -> dflag f = NO_DROPOUT -> act f <> SOFTMAX ->
  length e = fo f -> length (pre f) = fo f -> (act f <> NO_ACTIVATION -> length (post f) = fo f) -> length (temp f) = fo f -> length (temp3 f) = fo f ->
  backward_layer nb alias x f e = Some (r, g) -> backward_layer nb' alias x f e = Some (r', g') ->
  r = r' /\ dw g = dw g' /\ db g = db g'.
Proof.
  intros nb nb' alias x f e r r' g g' Hb Hb' Hn Hd Ha Le Lp Lq Lt Lt3 H H'.
  assert (Hnorm : forall nb, (forall f a e o o', nb f a e o = Some o' -> length o' = length o) -> forall q, norm_backward nb f e (temp f) (temp3 f) = Some q -> length q.1 = fo f /\ length q.2 = fo f).
  { intros nb0 Hb0 q Hq. unfold norm_backward in Hq. rewrite decide_True in Hq by done. destruct (nb0 f _ e (temp3 f)) as [t3|] eqn:E; [|done]. cbn [mbind option_bind] in Hq. apply Hb0 in E.
    destruct (copy_run t3 (temp f) 0 (fo f)) as (c & Ec & Lc & _); [lia..|]. rewrite Ec in Hq. cbn [mbind option_bind] in Hq. rewrite fill_run in Hq by lia. cbn in Hq. injection Hq as <-. cbn. rewrite replicate_length. lia. }
  assert (Hplain : forall nb, (forall f a e o o', nb f a e o = Some o' -> length o' = length o) -> forall q, error_plain nb alias f e = Some q ->
    length q.1.1 = fo f /\ forall i, (i < fo f)%nat -> el q.1.1 i = el e i * match act f with 1%nat => derivative_sigmoid_given_the_sigmoid (el (post f) i) | 2%nat => derivative_relu (el (pre f) i) | 6%nat => derivative_elu (el (pre f) i) 1 | 4%nat => derivative_tanhh (el (pre f) i) | 5%nat => derivative_leaky_relu (el (pre f) i) | _ => 1 end).
  { intros nb0 Hb0 q Hq. unfold error_plain in Hq. destruct (norm_backward nb0 f e (temp f) (temp3 f)) as [u|] eqn:E; [|done]. cbn [mbind option_bind] in Hq. destruct (Hnorm nb0 Hb0 u E) as [L1 L2].
    assert (Hgo : forall d a, length a = fo f -> (s ← times d a e u.1 u.2 (fo f); Some (s.1, s.1, s.2)) = Some q -> length q.1.1 = fo f /\ forall i, (i < fo f)%nat -> el q.1.1 i = el e i * d (el a i)).
    { intros d a La Hq'. destruct (times_run d a e u.1 u.2 (fo f)) as (t' & t3' & Et & Lt' & _ & Hi); [done..|]. rewrite Et in Hq'. cbn in Hq'. injection Hq' as <-. done. }
    destruct (decide (act f = SIGMOID)) as [E1|N1]; [rewrite E1; apply (Hgo derivative_sigmoid_given_the_sigmoid (post f)); [apply Lq; by rewrite E1|done]|].
    destruct (decide (act f = RELU)) as [E1|N2]; [rewrite E1; by apply (Hgo derivative_relu (pre f))|].
    destruct (decide (act f = ELU)) as [E1|N3]; [rewrite E1; by apply (Hgo (fun z => derivative_elu z 1) (pre f))|].
    rewrite (decide_False (P := act f = SOFTMAX)) in Hq by done.
    destruct (decide (act f = TANH)) as [E1|N4]; [rewrite E1; by apply (Hgo derivative_tanhh (pre f))|].
    destruct (decide (act f = LEAKY_RELU)) as [E1|N5]; [rewrite E1; by apply (Hgo derivative_leaky_relu (pre f))|].
    assert (Hm : forall a b c d0 e0 : R, match act f with 1%nat => a | 2%nat => b | 6%nat => c | 4%nat => d0 | 5%nat => e0 | _ => 1 end = 1).
    { intros. unfold SIGMOID, RELU, ELU, TANH, LEAKY_RELU in *. destruct (act f) as [|[|[|[|[|[|[|]]]]]]]; done. }
    destruct alias.
    - injection Hq as <-. cbn [fst]. split; [done|]. intros i Hi. rewrite Hm. lra.
    - destruct (copy_run e u.1 0 (fo f)) as (c & Ec & Lc & Hc & _); [lia..|]. rewrite Ec in Hq. cbn [mbind option_bind fst snd] in Hq. injection Hq as <-. cbn [fst]. split; [congruence|]. intros i Hi. rewrite Hm. specialize (Hc i Hi). cbn [Nat.add] in Hc. rewrite Hc. lra. }
  unfold backward_layer in H, H'. rewrite Hd in H, H'. rewrite (decide_False (P := NO_DROPOUT <> NO_DROPOUT)) in H, H' by (unfold NO_DROPOUT; lia).
  destruct (error_plain nb alias f e) as [q|] eqn:Eq; [|done]. destruct (error_plain nb' alias f e) as [q'|] eqn:Eq'; [|done]. cbn [mbind option_bind] in H, H'.
  assert (Hqq : q.1.1 = q'.1.1).
  { destruct (Hplain nb Hb q Eq) as [La Hia]. destruct (Hplain nb' Hb' q' Eq') as [Lb Hib].
    rewrite (list_map_seq q.1.1 (fo f) (el q'.1.1)); [|done|intros i Hi; by rewrite Hia, Hib by done]. symmetry. by apply list_map_seq. }
  rewrite Hqq in H. destruct (decide (mode f = GRADIENT_DESCENT \/ mode f = FREEZE_TRAINING)).
  - destruct (fc_back_prop _ _ _ _ _ _ _) as [sres|]; [|done]. cbn [mbind option_bind] in H, H'. destruct (sres.2) as [bb|]; [|done]. cbn in H, H'. injection H as <- <-. injection H' as <- <-. done.
  - destruct (decide (mode f = FREEZE_BIASES)); [|done]. destruct (fc_back_prop _ _ _ _ _ _ _) as [sres|]; [|done]. cbn in H, H'. injection H as <- <-. injection H' as <- <-. done.
Qed.

(** Concrete instances: two inputs, a hidden leaky-ReLU layer with dropout (unit 1 dropped), a sigmoid output *)
Definition ex_f1 : fcl := Fcl 2 2 [1; 2; -1; 1] [1; 3] [0; 0; 0; 0] [0; 0] LEAKY_RELU NO_NORMALIZATION DROPOUT (1 / 2) GRADIENT_DESCENT
  [7; 7] [8; 8] [] [0; 1] [3; 3] [1; 2] [3; 4] [5; 6] [1; 1]%Z.
Definition ex_f2 : fcl := Fcl 2 1 [1; -2] [0] [0; 0] [0] SIGMOID NO_NORMALIZATION NO_DROPOUT 0 FREEZE_BIASES
  [7] [8] [] [] [] [1] [3] [5; 6] [1]%Z.
Definition ex_draw (k i : nat) : R := if decide (i = 1%nat) then 0 else 1.
Definition ex_loss : loss := Loss CROSS_ENTROPY_LOSS 0 0 0 (Some [3]) [0].
Lemma ex_shaped : shaped ex_f1 /\ shaped ex_f2.
Proof.
  split; unfold shaped, ex_f1, ex_f2; cbn; split_and!; try done; try lia; try (unfold LEAKY_RELU, SIGMOID, DROPOUT, NO_DROPOUT; lia);
    first [intros [|[|[|i]]]; done | by left | by right; right].
Qed.
Lemma ex_logistic z : 0 < logistic z < 1.
Proof. unfold logistic. pose proof (exp_pos z). split; [apply Rdiv_lt_0_compat; lra|]. apply (Rmult_lt_reg_r (1 + exp z)); [lra|]. unfold Rdiv. rewrite Rmult_assoc, Rinv_l by lra. lra. Qed.
Example C52_example : exists f1 f2 r g1 g2, reset_fcl ex_f1 = Some f1 /\ reset_fcl ex_f2 = Some f2 /\
  ff_error_bp_model_once (fun _ _ o => Some o) (fun _ _ _ o => Some o) ex_draw ex_loss [1; 1] [1] [f1; f2] = Some (r, [g1; g2]) /\
  length r = 2%nat /\ db g2 = [0] /\ weights g1 = [1; 2; -1; 1] /\
  (exists d, el (dw g1) 0 = d /\ has_partial (fun W => total_loss ex_loss [1] 1 (net (<[0%nat := with_W (layer_of (ex_draw 0) f1) W]> (layers_of ex_draw 0 [f1; f2])) [1; 1])) [1; 2; -1; 1] 0 d).
Proof.
  destruct ex_shaped as [S1 S2]. destruct (C52_reset ex_f1 S1) as (f1 & E1 & R1 & D1 & B1 & _ & i1 & o1 & w1 & b1 & a1 & df1 & t1 & m1).
  destruct (C52_reset ex_f2 S2) as (f2 & E2 & R2 & D2 & B2 & _ & i2 & o2 & w2 & b2 & a2 & df2 & t2 & m2).
  assert (Hod : output_dimension [f1; f2] = 1%nat) by (unfold output_dimension; cbn [list.last]; exact o2).
  destruct (C52_training_step (fun _ _ o => Some o) (fun _ _ _ o => Some o) ex_draw ex_loss [1; 1] [1] [f1; f2]) as (r & fs'' & E & L & Lr & _ & Hj).
  - apply list.Forall_cons; split; [done|]. apply list.Forall_cons; split; [done|]. by apply list.Forall_nil.
  - cbn. rewrite i1, i2, o1. cbn. split_and!; try done. rewrite a1. done.
  - done.
  - intros f Hf. apply elem_of_cons in Hf as [->|Hf]; [by rewrite df1|]. apply elem_of_list_singleton in Hf as ->. by rewrite df2.
  - cbn [layers_of off_kinks]. split.
    + intros _ i Hi. cbn [layer_of d_out] in Hi. rewrite o1 in Hi. cbn in Hi. unfold affine. cbn [layer_of d_in d_out d_W d_b]. rewrite el_dense by (rewrite o1; exact Hi). rewrite i1, w1, b1.
      destruct i as [|[|i]]; [| |lia]; cbn; unfold el; cbn; lra.
    + split; [|done]. intros Hk. cbn [layer_of d_act] in Hk. rewrite a2 in Hk. by destruct Hk as [?|[?|?]].
  - rewrite Hod. lia.
  - by rewrite Hod.
  - by rewrite Hod.
  - intros al Hal. rewrite Hod. cbn in Hal. by injection Hal as <-.
  - intros i Hi. rewrite Hod in Hi. assert (i = 0%nat) as -> by lia. right. right. left. split; [by left|]. cbn [layers_of net].
    rewrite el_apply by (cbn [layer_of d_out]; rewrite o2; cbn; lia). cbn [layer_of d_keep d_act d_out]. unfold keep_of. rewrite df2. rewrite !(decide_False (P := dflag ex_f2 = _)) by done.
    unfold activations, activation. rewrite a2. rewrite (decide_False (P := act ex_f2 = SOFTMAX)) by done. rewrite (decide_True (P := act ex_f2 = SIGMOID)) by done. rewrite Rmult_1_l. apply ex_logistic.
  - destruct fs'' as [|g1 [|g2 [|]]]; try done. exists f1, f2, r, g1, g2. split; [done|]. split; [done|]. split; [done|]. split; [done|].
    destruct (Hj 0%nat f1 eq_refl) as (g & Eg & Hk1 & HW & _). cbn in Eg. injection Eg as <-. destruct (Hj 1%nat f2 eq_refl) as (g & Eg & Hk2 & _ & Hb2). cbn in Eg. injection Eg as <-.
    rewrite m2 in Hb2. rewrite decide_True in Hb2 by done. split; [by rewrite Hb2, B2|]. split; [destruct Hk1 as (_ & _ & -> & _); by rewrite w1|].
    destruct (HW 0%nat) as (d & Ed & Hd); [rewrite o1, i1; cbn; lia|]. exists d. split; [rewrite Ed, D1; rewrite el_replicate; lra|]. rewrite Hod, w1 in Hd. exact Hd.
Qed.

Print Assumptions C52_reset.
Print Assumptions C52_forward.
Print Assumptions C52_backward_is_the_gradient.
Print Assumptions C52_training_step.
Print Assumptions C52_huber_step_ascends_refuted.
Print Assumptions C52_test_mode_last_layer_refuted.
Print Assumptions C52_test_mode_linear_layer_refuted.
Print Assumptions C52_normalization_gradient_dropped_refuted.
