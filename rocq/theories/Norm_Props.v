(** C32: what the normalization layers guarantee; C49: edge-popup score normalization *)
From Coquelicot Require Import Coquelicot.
From Verif Require Import BaseLemmas NumLib3 Attn_Model Norm_Model Norm_Spec Norm_Proofs Norm_Channel Norm_More.
Open Scope R_scope.

Lemma variance_nonneg X B j : 0 <= batch_variance X B j.
Proof.
  unfold batch_variance. destruct B as [|B]; [cbn; unfold Rdiv; lra|]. apply Rmult_le_pos; [apply sumn_nonneg; intros; apply pow2_ge_0|]. apply Rlt_le, Rinv_0_lt_compat, lt_0_INR. lia.
Qed.
Lemma standardized_stats X B eps j : (0 < B)%nat -> 0 < eps ->
  sumn B (fun i => standardized X B eps i j) = 0 /\ sumn B (fun i => standardized X B eps i j ^ 2) / INR B = batch_variance X B j / (batch_variance X B j + eps).
Proof.
  intros HB He. pose proof (variance_nonneg X B j) as Hv. assert (HI : 0 < INR B) by (apply lt_0_INR; lia).
  assert (Hs : 0 < R_sqrt.sqrt (batch_variance X B j + eps)) by (apply R_sqrt.sqrt_lt_R0; lra).
  split.
  - unfold standardized, Rdiv. rewrite sumn_scal_r, sumn_minus, sumn_const. unfold batch_mean. field. lra.
  - rewrite (sumn_ext B _ (fun i => (X i j - batch_mean X B j) ^ 2 * / (batch_variance X B j + eps))).
    + rewrite sumn_scal_r. replace (sumn B (fun i => (X i j - batch_mean X B j) ^ 2)) with (batch_variance X B j * INR B) by (unfold batch_variance; field; lra). field. lra.
    + intros i Hi. unfold standardized. rewrite Rpow_mult_distr || idtac. unfold Rdiv. rewrite Rpow_mult_distr. f_equal. cbn [pow]. rewrite Rmult_1_r, <- Rinv_mult. f_equal. apply R_sqrt.sqrt_sqrt. lra.
Qed.

(** C32: batch normalization stays inside its arrays and outputs gamma*z+beta, where z has mean 0 and variance
    var/(var+eps) < 1 over the mini-batch, and mean, var are the statistics of the mini-batch *)
Theorem C32_batch_norm : forall B N input temp gamma beta mean var outputs eps,
  (0 < B)%nat -> 0 < eps -> shape input B N -> shape temp B N -> shape outputs B N ->
  length gamma = N -> length beta = N -> length mean = N -> length var = N -> (forall j, el mean j = 0) -> (forall j, el var j = 0) ->
  exists m v z o, batch_normalization_feed_forward B input temp N gamma beta mean var outputs eps = Some (m, v, z, o) /\
    forall j, (j < N)%nat ->
      el m j = batch_mean (mel input) B j /\ el v j = batch_variance (mel input) B j /\
      sumn B (fun i => mel z i j) = 0 /\
      sumn B (fun i => mel z i j ^ 2) / INR B = batch_variance (mel input) B j / (batch_variance (mel input) B j + eps) /\
      sumn B (fun i => mel z i j ^ 2) / INR B < 1 /\
      forall i, (i < B)%nat -> mel o i j = el gamma j * mel z i j + el beta j.
Proof.
  intros B N input temp gamma beta mean var outputs eps HB He Hs Ht Ho Lg Lb Lm Lv Zm Zv.
  destruct (bn_ff_run B B input temp N gamma beta mean var outputs eps) as (m & v & t & o & E & _ & _ & _ & _ & G1 & G2); try done.
  exists m, v, t, o. split; [done|]. intros j Hj. destruct (G1 j Hj) as [-> ->]. split; [done|]. split; [done|].
  destruct (standardized_stats (mel input) B eps j HB He) as [S1 S2]. pose proof (variance_nonneg (mel input) B j) as Hv.
  assert (Z1 : sumn B (fun i => mel t i j) = sumn B (fun i => standardized (mel input) B eps i j)) by (apply sumn_ext; intros i Hi; by apply G2).
  assert (Z2 : sumn B (fun i => mel t i j ^ 2) = sumn B (fun i => standardized (mel input) B eps i j ^ 2)) by (apply sumn_ext; intros i Hi; f_equal; by apply G2).
  rewrite Z1, Z2, S2. split; [done|]. split; [done|]. split.
  - apply (Rmult_lt_reg_r (batch_variance (mel input) B j + eps)); [lra|]. unfold Rdiv. rewrite Rmult_assoc, Rinv_l by lra. lra.
  - intros i Hi. destruct (G2 i j Hi Hj) as [-> ->]. done.
Qed.
Print Assumptions C32_batch_norm.

(** C32: the backward pass adds to the errors of gamma and beta the exact partial derivatives of <error, output> *)
Theorem C32_batch_norm_parameter_gradient : forall B N input temp gamma beta mean var outputs eps oerr e ierr,
  (0 < B)%nat -> shape input B N -> shape temp B N -> shape outputs B N ->
  length gamma = N -> length beta = N -> length mean = N -> length var = N -> (forall j, el mean j = 0) -> (forall j, el var j = 0) ->
  shape oerr B N -> length (be_gamma e) = N -> length (be_beta e) = N -> length (be_array e) = N -> shape (be_temp e) B N -> shape ierr B N ->
  exists m v z o e' ie, batch_normalization_feed_forward B input temp N gamma beta mean var outputs eps = Some (m, v, z, o) /\
    batch_normalization_back_prop B input z N gamma m v oerr eps e ierr = Some (e', ie) /\
    grad_added (fun g => batch_norm_loss (mel oerr) (mel input) B N eps g beta) gamma (be_gamma e) (be_gamma e') /\
    grad_added (fun b => batch_norm_loss (mel oerr) (mel input) B N eps gamma b) beta (be_beta e) (be_beta e').
Proof.
  intros B N input temp gamma beta mean var outputs eps oerr e ierr HB Hs Ht Ho Lg Lb Lm Lv Zm Zv So L1 L2 L3 S4 Si.
  destruct (bn_ff_run B B input temp N gamma beta mean var outputs eps) as (m & v & t & o & E & Lm' & Lv' & St & _ & G1 & G2); try done.
  destruct (bn_bp_first_run B input t N gamma m oerr e) as (e' & E1 & A1 & A2 & A3 & A4 & A5 & A6 & _ & _); try done.
  destruct (bn_bp_second_run B input N m v (be_temp e') (be_array e') eps ierr) as (ie & E2 & _ & _); try done.
  exists m, v, t, o, e', ie. split; [done|]. split; [unfold batch_normalization_back_prop; rewrite E1; cbn [mbind option_bind]; rewrite E2; done|].
  split.
  - split; [lia|]. intros k Hk. eexists. split; [apply A5; lia|]. unfold has_partial, batch_norm_loss, batch_norm_output. eapply dlim_val; cycle 1.
    + apply (dlim_sum2 B N (fun i j z => mel oerr i j * (el (<[k:=z]> gamma) j * standardized (mel input) B eps i j + el beta j))). intros i j Hi Hj. apply dlim_scal. apply dlim_plus; [apply dlim_mult; [apply dlim_el; lia|apply dlim_const]|apply dlim_const].
    + unfold sum2. apply sumn_ext. intros i Hi. rewrite (sumn_single N k); [|lia|intros j Hj Hne; rewrite decide_False by done; ring]. rewrite decide_True by done. destruct (G2 i k Hi ltac:(lia)) as [-> _]. ring.
  - split; [lia|]. intros k Hk. eexists. split; [apply A6; lia|]. unfold has_partial, batch_norm_loss, batch_norm_output. eapply dlim_val; cycle 1.
    + apply (dlim_sum2 B N (fun i j z => mel oerr i j * (el gamma j * standardized (mel input) B eps i j + el (<[k:=z]> beta) j))). intros i j Hi Hj. apply dlim_scal. apply dlim_plus; [apply dlim_const|apply dlim_el; lia].
    + unfold sum2. apply sumn_ext. intros i Hi. rewrite (sumn_single N k); [|lia|intros j Hj Hne; rewrite decide_False by done; ring]. rewrite decide_True by done. ring.
Qed.
Print Assumptions C32_batch_norm_parameter_gradient.

(** C32, refuted: the input error is not the gradient.  Two instances -1 and 1, error 1 on the first only: the error left
    at the second instance is 0, the derivative of <error, output> with respect to it is -3/16 *)
Theorem C32_batch_norm_input_error_refuted : exists m v z o e' ie,
  batch_normalization_feed_forward 2 [[-1]; [1]] [[0]; [0]] 1 [1] [0] [0] [0] [[0]; [0]] 3 = Some (m, v, z, o) /\
  batch_normalization_back_prop 2 [[-1]; [1]] z 1 [1] m v [[1]; [0]] 3 (BnErr [0] [0] [[0]; [0]] [0]) [[0]; [0]] = Some (e', ie) /\
  mel ie 1 0 = 0 /\ derivable_pt_lim (fun x => batch_norm_loss (mel [[1]; [0]]) (mel [[-1]; [x]]) 2 1 3 [1] [0]) 1 (-3 / 16).
Proof.
  assert (Sh : forall a b : R, shape [[a]; [b]] 2 1) by (intros; split; [done|]; intros [|[|i]] Hi; [done|done|lia]).
  assert (Z : forall j, el [0] j = 0) by (intros [|[|j]]; done).
  destruct (bn_ff_run 2 2 [[-1]; [1]] [[0]; [0]] 1 [1] [0] [0] [0] [[0]; [0]] 3) as (m & v & t & o & E & Lm' & Lv' & St & _ & G1 & G2); try done; try apply Sh; try lia.
  destruct (bn_bp_first_run 2 [[-1]; [1]] t 1 [1] m [[1]; [0]] (BnErr [0] [0] [[0]; [0]] [0])) as (e' & E1 & A1 & A2 & A3 & A4 & A5 & A6 & A7 & A8); try done; try apply Sh; try lia.
  destruct (bn_bp_second_run 2 [[-1]; [1]] 1 m v (be_temp e') (be_array e') 3 [[0]; [0]]) as (ie & E2 & _ & B); try done; try apply Sh; try lia.
  exists m, v, t, o, e', ie. split; [done|]. split; [unfold batch_normalization_back_prop; rewrite E1; cbn [mbind option_bind]; rewrite E2; done|]. split.
  - rewrite B by lia. rewrite A8 by lia. unfold mel, el. cbn [nth]. ring.
  - assert (EL : forall x, batch_norm_loss (mel [[1]; [0]]) (mel [[-1]; [x]]) 2 1 3 [1] [0] = (-1 - (-1 + x) / 2) / R_sqrt.sqrt (((1 + x) / 2) * ((1 + x) / 2) + 3)).
    { intros x. unfold batch_norm_loss, batch_norm_output, standardized, batch_variance, batch_mean, mel, el. cbn [sumn nth INR]. rewrite Rplus_0_l.
      replace ((0 + (-1 - (0 + -1 + x) / (1 + 1)) ^ 2 + (x - (0 + -1 + x) / (1 + 1)) ^ 2) / (1 + 1) + 3) with ((1 + x) / 2 * ((1 + x) / 2) + 3) by field.
      replace (-1 - (0 + -1 + x) / (1 + 1)) with (-1 - (-1 + x) / 2) by field. unfold Rdiv. ring. }
    eapply dlim_ext; [exact EL|]. apply is_derive_Reals. auto_derive.
    + assert (0 <= (1 + 1) * / 2 * ((1 + 1) * / 2)) by nra. assert (Hs : 0 < R_sqrt.sqrt ((1 + 1) * / 2 * ((1 + 1) * / 2) + 3)) by (apply R_sqrt.sqrt_lt_R0; lra). repeat split; lra.
    + replace ((1 + 1) * / 2 * ((1 + 1) * / 2) + 3) with (2 * 2) by field. rewrite R_sqrt.sqrt_square by lra. field.
Qed.
Print Assumptions C32_batch_norm_input_error_refuted.

(** C32: the statistics kept for inference after training are those of the first mini-batch of the (shuffled) dataset *)
Theorem C32_dataset_statistics_computed : forall input nv N mini eps b,
  (0 < mini)%nat -> (0 < nv)%nat -> (nv mod mini = 0)%nat -> shape input nv N ->
  length (bn_gamma b) = N -> length (bn_beta b) = N -> length (bn_mean_ b) = N -> length (bn_var_ b) = N -> shape (bn_temp b) mini N -> shape (bn_outputs b) mini N ->
  exists b', batch_normalization_final_mean_variance input nv N mini eps b = Some b' /\
    forall j, (j < N)%nat -> el (bn_mean_ b') j = batch_mean (mel input) mini j /\ el (bn_var_ b') j = INR mini / INR (mini - 1) * batch_variance (mel input) mini j.
Proof. exact final_run. Qed.
(** refuted: they are not the statistics of the whole dataset.  Dataset 0, 0, 1, 1 in mini-batches of two *)
Theorem C32_dataset_statistics_refuted : exists b', batch_normalization_final_mean_variance [[0]; [0]; [1]; [1]] 4 1 2 1 (Bn [1] [0] [0] [0] [[0]; [0]] [[0]; [0]] 1) = Some b' /\
  el (bn_mean_ b') 0 = 0 /\ batch_mean (mel [[0]; [0]; [1]; [1]]) 4 0 = 1 / 2.
Proof.
  assert (Sh : forall a b : R, shape [[a]; [b]] 2 1) by (intros; split; [done|]; intros [|[|i]] Hi; [done|done|lia]).
  destruct (final_run [[0]; [0]; [1]; [1]] 4 1 2 1 (Bn [1] [0] [0] [0] [[0]; [0]] [[0]; [0]] 1)) as (b' & E & G); try done; try apply Sh; try lia.
  { split; [done|]. intros [|[|[|[|i]]]] Hi; [done|done|done|done|lia]. }
  exists b'. split; [exact E|]. destruct (G 0%nat ltac:(lia)) as [-> _]. unfold batch_mean, mel, el. cbn [sumn nth INR]. split; field.
Qed.
Print Assumptions C32_dataset_statistics_refuted.

(** C32: scaled l2 normalization of a non-zero vector has Euclidean norm |g| *)
Theorem C32_scaled_l2 : forall n g input output, length input = n -> length output = n -> norm2 n input <> 0 ->
  exists o, feed_forward_scaled_l2_norm n g input output = Some (norm2 n input, o) /\ length o = n /\ norm2 n o = Rabs g /\ forall i, (i < n)%nat -> el o i = g * el input i / norm2 n input.
Proof.
  intros n g input output L1 L2 Hn. destruct (l2_ff_run n g input output L1 L2) as (o & E & Lo & G). exists o. split; [done|]. split; [done|]. split; [|exact G].
  unfold norm2 at 1. rewrite (sumn_ext n _ (fun i => el input i ^ 2 * (g / norm2 n input) ^ 2)) by (intros i Hi; rewrite G by done; unfold scaled_l2; field; done).
  rewrite sumn_scal_r. assert (Hq : sumn n (fun i => el input i ^ 2) = norm2 n input ^ 2).
  { unfold norm2. cbn [pow]. rewrite Rmult_1_r. rewrite R_sqrt.sqrt_sqrt by (apply sumn_nonneg; intros; apply pow2_ge_0). done. }
  rewrite Hq. replace (norm2 n input ^ 2 * (g / norm2 n input) ^ 2) with (Rsqr g) by (unfold Rsqr; field; done). apply sqrt_Rsqr_abs.
Qed.
Print Assumptions C32_scaled_l2.

(** C32: its backward pass adds the exact partial derivatives of <error, output> with respect to the input and to g *)
Theorem C32_scaled_l2_gradient : forall n g dg input output oerr ierr, length input = n -> length output = n -> length oerr = n -> length ierr = n -> norm2 n input <> 0 ->
  exists norm o dg' ie, feed_forward_scaled_l2_norm n g input output = Some (norm, o) /\ back_propagation_scaled_l2_norm n g dg norm input oerr ierr = Some (dg', ie) /\
    grad_added (fun x => scaled_l2_loss n oerr g x) input ierr ie /\
    derivable_pt_lim (fun g => scaled_l2_loss n oerr g input) g (dg' - dg).
Proof.
  intros n g dg input output oerr ierr L1 L2 L3 L4 Hn. destruct (l2_ff_run n g input output L1 L2) as (o & E & Lo & G).
  destruct (l2_bp_run n g dg (norm2 n input) input oerr ierr L1 L3 L4) as (dg' & ie & E2 & Li & Gd & Gi).
  exists (norm2 n input), o, dg', ie. split; [done|]. split; [done|].
  assert (Hq : sumn n (fun i => el input i ^ 2) = norm2 n input * norm2 n input) by (unfold norm2; rewrite R_sqrt.sqrt_sqrt by (apply sumn_nonneg; intros; apply pow2_ge_0); done).
  assert (Hpos : 0 < norm2 n input) by (assert (0 <= norm2 n input) by (apply R_sqrt.sqrt_pos); lra).
  split; [split; [lia|]; intros k Hk|].
  - eexists. split; [apply Gi; lia|]. unfold has_partial.
    assert (EL : forall z, scaled_l2_loss n oerr g (<[k:=z]> input) = (g * sumn n (fun i => el oerr i * el (<[k:=z]> input) i)) / norm2 n (<[k:=z]> input)).
    { intros z. unfold scaled_l2_loss, scaled_l2, Rdiv. rewrite <- sumn_scal_l, <- sumn_scal_r. apply sumn_ext. intros; ring. }
    eapply dlim_ext; [exact EL|].
    assert (HS : derivable_pt_lim (fun z => sumn n (fun i => el (<[k:=z]> input) i ^ 2)) (el input k) (2 * el input k)).
    { eapply dlim_val; cycle 1.
      - apply (dlim_sumn n (fun i z => el (<[k:=z]> input) i ^ 2)). intros i Hi.
        assert (Ex : forall z, el (<[k:=z]> input) i ^ 2 = el (<[k:=z]> input) i * el (<[k:=z]> input) i) by (intros; ring). eapply dlim_ext; [exact Ex|]. apply dlim_mult; apply dlim_el; lia.
      - rewrite (sumn_single n k); [|lia|intros i Hi Hne; rewrite decide_False by done; ring]. rewrite decide_True by done. rewrite upd_self. ring. }
    assert (HN : derivable_pt_lim (fun z => norm2 n (<[k:=z]> input)) (el input k) (/ (2 * norm2 n input) * (2 * el input k))).
    { unfold norm2 at 1. apply (dlim_comp (fun z => sumn n (fun i => el (<[k:=z]> input) i ^ 2)) R_sqrt.sqrt); [exact HS|]. rewrite upd_self. apply derivable_pt_lim_sqrt. rewrite Hq. nra. }
    assert (HL : derivable_pt_lim (fun z => g * sumn n (fun i => el oerr i * el (<[k:=z]> input) i)) (el input k) (g * el oerr k)).
    { apply dlim_scal. eapply dlim_val; cycle 1; [apply (dlim_sumn n (fun i z => el oerr i * el (<[k:=z]> input) i)); intros i Hi; apply dlim_scal; apply dlim_el; lia|].
      rewrite (sumn_single n k); [|lia|intros i Hi Hne; rewrite decide_False by done; ring]. rewrite decide_True by done. ring. }
    eapply dlim_val; cycle 1; [apply dlim_div; [exact HL|exact HN|rewrite upd_self; exact Hn]|]. cbv beta. rewrite !upd_self. unfold Rsqr. symmetry.
    rewrite (sumn_ext n _ (fun j => - (g * el input k / (norm2 n input * norm2 n input * norm2 n input)) * (el oerr j * el input j) + if decide (j = k) then g * el oerr k / norm2 n input else 0)).
    + rewrite sumn_plus, sumn_scal_l. rewrite (sumn_delta n k (fun _ => g * el oerr k / norm2 n input)) by lia. field. done.
    + intros j Hj. destruct (decide (k = j)) as [<-|Hne]; [rewrite decide_True by done|rewrite decide_False by congruence]; field; done.
  - rewrite Gd. apply (dlim_affine _ _ _ 0). intros z. unfold scaled_l2_loss, scaled_l2. replace (dg + sumn n (fun i => el oerr i * el input i / norm2 n input) - dg) with (sumn n (fun i => el oerr i * el input i / norm2 n input)) by lra.
    rewrite Rplus_0_r. rewrite <- sumn_scal_l. apply sumn_ext. intros. field. done.
Qed.
Print Assumptions C32_scaled_l2_gradient.

(** C32: layer normalization of a fully connected layer (model.c:1439: n_groups groups of vector_dim entries) standardizes
    position p over the groups: output g*vector_dim+p is gamma_p*z+beta_p with z the standardized value of group g *)
Theorem C32_layer_norm : forall groups dim input temp gamma beta mean var outputs eps,
  (0 < groups)%nat -> length input = (groups * dim)%nat -> length outputs = (groups * dim)%nat -> shape temp groups dim ->
  length gamma = dim -> length beta = dim -> length mean = dim -> length var = dim -> (forall p, el mean p = 0) -> (forall p, el var p = 0) ->
  exists m v t o, channel_normalization_feed_forward groups input 0 temp gamma beta mean var outputs eps 0 0 dim 1 None = Some (m, v, t, o) /\ length o = (groups * dim)%nat /\
    forall g p, (g < groups)%nat -> (p < dim)%nat -> el o (g * dim + p) = batch_norm_output (fun g p => el input (g * dim + p)) groups eps gamma beta g p.
Proof.
  intros groups dim input temp gamma beta mean var outputs eps Hg Li Lo St Lg Lb Lm Lv Zm Zv.
  destruct (channel_run groups input 0 temp gamma beta mean var outputs eps 0 0 dim 1 None groups groups dim) as (m & v & t & o & E & L & _ & G & _); try done; [lia|lia|lia|].
  exists m, v, t, o. split; [exact E|]. split; [lia|]. intros g p Hgg Hp. specialize (G g p Hgg ltac:(lia)).
  assert (Ec : forall c q, (q < dim)%nat -> cell 0 0 0 dim 1 c q = (c * dim + q)%nat).
  { intros c q Hq. unfold cell. replace (1 - 0 - 0)%nat with 1%nat by lia. rewrite Nat.div_1_r, Nat.mod_1_r. lia. }
  cbn [chan] in G. rewrite Ec in G by done. rewrite G. unfold batch_norm_output, standardized, batch_variance, batch_mean, chanX, chan.
  assert (Es : forall i, el input (cell 0 0 0 dim 1 i p) = el input (i * dim + p)) by (intros i; by rewrite Ec).
  rewrite !Es. rewrite !(sumn_ext groups (fun i => el input (cell 0 0 0 dim 1 i p)) (fun i => el input (i * dim + p))) by (intros; apply Es).
  rewrite (sumn_ext groups (fun i => (el input (cell 0 0 0 dim 1 i p) - _) ^ 2) (fun i => (el input (i * dim + p) - sumn groups (fun i => el input (i * dim + p)) / INR groups) ^ 2)) by (intros; by rewrite Es). done.
Qed.
Print Assumptions C32_layer_norm.
(** consequence: with one group, which the constructors accept (fully_connected_layers.c:83), the output is beta whatever
    the input is *)
Theorem C32_layer_norm_one_group_ignores_input : forall dim input temp gamma beta mean var outputs eps,
  length input = dim -> length outputs = dim -> shape temp 1 dim ->
  length gamma = dim -> length beta = dim -> length mean = dim -> length var = dim -> (forall p, el mean p = 0) -> (forall p, el var p = 0) ->
  exists m v t o, channel_normalization_feed_forward 1 input 0 temp gamma beta mean var outputs eps 0 0 dim 1 None = Some (m, v, t, o) /\ forall p, (p < dim)%nat -> el o p = el beta p.
Proof.
  intros dim input temp gamma beta mean var outputs eps Li Lo St Lg Lb Lm Lv Zm Zv.
  destruct (C32_layer_norm 1 dim input temp gamma beta mean var outputs eps) as (m & v & t & o & E & _ & G); try done; [lia|lia|lia|].
  exists m, v, t, o. split; [exact E|]. intros p Hp. specialize (G 0%nat p ltac:(lia) Hp). rewrite Nat.mul_0_l, Nat.add_0_l in G. rewrite G. unfold batch_norm_output, standardized, batch_mean. cbn [sumn INR].
  replace (el input (0 * dim + p) - (0 + el input (0 * dim + p)) / 1) with 0 by field. unfold Rdiv. ring.
Qed.
Print Assumptions C32_layer_norm_one_group_ignores_input.

(** C32: group normalization with one group of all channels, no padding *)
Theorem C32_group_norm_one_group : forall c rows cols stride tensor post b,
  (0 < c)%nat -> (0 < stride)%nat -> length tensor = (c * rows * cols)%nat -> length post = (c * rows * cols)%nat ->
  length (bn_gamma b) = (rows * cols)%nat -> length (bn_beta b) = (rows * cols)%nat -> length (bn_mean_ b) = (rows * cols)%nat -> length (bn_var_ b) = (rows * cols)%nat -> shape (bn_temp b) c (rows * cols) ->
  (forall p, el (bn_mean_ b) p = 0) -> (forall p, el (bn_var_ b) p = 0) ->
  exists bns o, group_normalization_feed_forward tensor c rows cols c stride [b] 0 0 post (replicate c true) = Some (bns, o) /\
    forall ch p, (ch < c)%nat -> (p < rows * cols)%nat -> el o (ch * (rows * cols) + p) = batch_norm_output (fun ch p => el tensor (ch * (rows * cols) + p)) c (bn_epsilon b) (bn_gamma b) (bn_beta b) ch p.
Proof.
  intros c rows cols stride tensor post b Hc Hst Lt Lp Lg Lb Lm Lv St Zm Zv. unfold group_normalization_feed_forward. cbv zeta. rewrite filter_true_replicate by lia.
  rewrite decide_False by (rewrite Nat.mod_same by lia; lia). rewrite Nat.sub_diag, Nat.div_0_l by lia. rewrite replicate_length. replace (c + c + 1)%nat with (S (c + c)) by lia. cbn [gn_loop Nat.add]. rewrite decide_False by lia.
  rewrite (rd_rep c 0) by lia. cbn [mbind option_bind rd lookup list_lookup].
  destruct (channel_run c tensor 0 (bn_temp b) (bn_gamma b) (bn_beta b) (bn_mean_ b) (bn_var_ b) post (bn_epsilon b) 0 0 rows cols (Some (replicate c true)) c c (rows * cols)) as (m & v & t & o & E & L & _ & G & _); try done; try lia.
  { by apply enough_all. } { intros ii Hii. rewrite chan_all by done. lia. } 
  change (rd [b] 0) with (Some b). cbn [mbind option_bind]. rewrite E. cbn [mbind option_bind fst snd]. rewrite wr_Some by (cbn; lia). cbn [mbind option_bind]. rewrite gn_skip_all_run by lia. cbn [mbind option_bind].
  destruct (c + c)%nat as [|f] eqn:Ef; [lia|]. cbn [gn_loop]. rewrite decide_True by lia. eexists _, _. split; [reflexivity|].
  assert (Ec : forall ch q, (q < rows * cols)%nat -> cell 0 0 0 rows cols ch q = (ch * (rows * cols) + q)%nat).
  { intros ch q Hq. unfold cell. rewrite !Nat.sub_0_r. destruct (flat_split _ _ _ Hq) as (_ & _ & Eq). rewrite !Nat.add_0_l. rewrite Nat.mul_assoc. lia. }
  intros ch p Hch Hp. specialize (G ch p Hch ltac:(rewrite !Nat.sub_0_r; exact Hp)). rewrite chan_all in G by done. rewrite Ec in G by done. rewrite G.
  assert (EX : forall i, (i < c)%nat -> chanX tensor 0 0 0 rows cols (Some (replicate c true)) i p = el tensor (i * (rows * cols) + p)) by (intros i Hi; unfold chanX; rewrite chan_all, Ec by done; done).
  unfold batch_norm_output, standardized. assert (Em : batch_mean (chanX tensor 0 0 0 rows cols (Some (replicate c true))) c p = batch_mean (fun ch p => el tensor (ch * (rows * cols) + p)) c p) by (unfold batch_mean; f_equal; apply sumn_ext; intros; by apply EX).
  assert (Ev : batch_variance (chanX tensor 0 0 0 rows cols (Some (replicate c true))) c p = batch_variance (fun ch p => el tensor (ch * (rows * cols) + p)) c p) by (unfold batch_variance; f_equal; apply sumn_ext; intros i Hi; rewrite Em, EX by done; done).
  rewrite Em, Ev, EX by done. done.
Qed.
Print Assumptions C32_group_norm_one_group.
(** refuted for more groups: the group offset counts floats instead of channels, so with G >= 2 groups of g channels of
    at least two pixels the last entry of the tensor is never written, whatever the input *)
Theorem C32_group_norm_leaves_last_entry : forall G g rows cols tensor bns post bns' post',
  (2 <= G)%nat -> (0 < g)%nat -> (2 <= rows * cols)%nat ->
  group_normalization_feed_forward tensor (G * g) rows cols g g bns 0 0 post (replicate (G * g) true) = Some (bns', post') ->
  el post' (G * g * rows * cols - 1) = el post (G * g * rows * cols - 1).
Proof.
  intros G g rows cols tensor bns post bns' post' HG Hg Hrc E. unfold group_normalization_feed_forward in E. cbv zeta in E. rewrite filter_true_replicate in E by lia.
  destruct (decide _) in E; [done|]. replace (G * g - g)%nat with ((G - 1) * g)%nat in E by nia. rewrite Nat.div_mul in E by lia. replace (G - 1 + 1)%nat with G in E by lia.
  pose proof (gn_frame tensor rows cols g g 0 0 (G * g) G (G * g * rows * cols - 1) ltac:(nia) _ 0%nat _ _ _ E) as H. cbn [snd] in H. apply H.
  assert (H1 : (G * g * rows * cols = (G - 1) * g * (rows * cols) + g * rows * cols)%nat) by nia. rewrite H1. assert (H2 : ((G - 1) * g * 2 <= (G - 1) * g * (rows * cols))%nat) by (apply Nat.mul_le_mono_l; lia). nia.
Qed.
Print Assumptions C32_group_norm_leaves_last_entry.

(** C32: local response normalization of a layer with all channels in use *)
Theorem C32_local_response : forall x o n h beta alpha k, length x = n -> length o = n ->
  exists o', local_response_normalization_feed_forward_fcl x o n h beta alpha k (replicate n true) = Some o' /\ length o' = n /\ forall i, (i < n)%nat -> el o' i = lrn x n h beta alpha k i.
Proof. intros. by apply lrn_ff_run. Qed.
Print Assumptions C32_local_response.
(** refuted: its backward pass weights the derivative of output i by the error of input c instead of that of output i *)
Theorem C32_local_response_backward_refuted : exists te',
  local_response_normalization_back_prop_fcl [1; 1] [0; 0] [1; 0] 2 1 1 1 1 (replicate 2 true) = Some te' /\ el te' 1 = 0 /\
  has_partial (fun x => lrn_loss [1; 0] x 2 1 1 1 1) [1; 1] 1 (-2 / 9).
Proof.
  destruct (lrn_bp_run [1; 1] [1; 0] [0; 0] 2 1 1 1 1) as (te' & E & L & G); try done. exists te'. split; [exact E|]. split.
  - rewrite G by lia. unfold el at 1. cbn [nth]. rewrite sumn_0; [lra|]. intros i Hi. change (el [1; 0] 1) with 0. destruct (decide _); ring.
  - unfold has_partial. change (el [1; 1] 1) with 1. assert (EL : forall z, 0 <= z * z -> lrn_loss [1; 0] (<[1%nat:=z]> [1; 1]) 2 1 1 1 1 = / (2 + z * z)).
    { intros z Hz. unfold lrn_loss, lrn, lrn_scale. cbn [sumn]. rewrite !decide_True by lia. unfold el. cbn.
      match goal with |- context [Rpower ?a 1] => replace a with (2 + z * z) by ring end. rewrite !Rpower_1 by lra. unfold Rdiv. ring. }
    assert (EL' : forall z, lrn_loss [1; 0] (<[1%nat:=z]> [1; 1]) 2 1 1 1 1 = / (2 + z * z)) by (intros; apply EL; nra).
    eapply dlim_ext; [exact EL'|]. apply is_derive_Reals. auto_derive; [lra|]. field.
Qed.
Print Assumptions C32_local_response_backward_refuted.

(** C49: normalizing the edge-popup scores of a layer (two different scores, all within the sentinel range) maps them into
    [0,1], reaches both ends and keeps their order *)
Theorem C49_scores_normalized : forall s n, length s = n -> (forall i, (i < n)%nat -> -99999999 <= el s i <= 999999999) -> (exists i j, (i < n)%nat /\ (j < n)%nat /\ el s i <> el s j) ->
  exists s', normalize_scores s n = Some s' /\ length s' = n /\ (forall i, (i < n)%nat -> 0 <= el s' i <= 1) /\ (exists i, (i < n)%nat /\ el s' i = 0) /\ (exists i, (i < n)%nat /\ el s' i = 1) /\
    forall i j, (i < n)%nat -> (j < n)%nat -> el s i < el s j <-> el s' i < el s' j.
Proof.
  intros s n Ls Hr (a & c & Ha & Hc & Hne). destruct (normalize_scores_run s n Ls Hr ltac:(lia)) as (s' & mn & mx & E & L & Hb & (i0 & Hi0 & E0) & (i1 & Hi1 & E1) & G).
  assert (Hlt : 0 < mx - mn). { pose proof (Hb a Ha). pose proof (Hb c Hc). destruct (Rtotal_order (el s a) (el s c)) as [|[|]]; lra. }
  assert (Hinv : 0 < / (mx - mn)) by (by apply Rinv_0_lt_compat).
  exists s'. split; [done|]. split; [done|]. split; [|split; [|split]].
  - intros i Hi. rewrite G by done. pose proof (Hb i Hi). split.
    + apply Rmult_le_pos; lra.
    + apply (Rmult_le_reg_r (mx - mn)); [done|]. unfold Rdiv. rewrite Rmult_assoc, Rinv_l by lra. lra.
  - exists i0. split; [done|]. rewrite G by done. rewrite E0. unfold Rdiv. ring.
  - exists i1. split; [done|]. rewrite G by done. rewrite E1. field. lra.
  - intros i j Hi Hj. rewrite !G by done. unfold Rdiv. split; intros H; [apply Rmult_lt_compat_r; lra|]. apply Rmult_lt_reg_r in H; lra.
Qed.
Print Assumptions C49_scores_normalized.

(** concrete cases *)
Lemma shape2 (a b : R) : shape [[a]; [b]] 2 1.
Proof. split; [done|]; intros [|[|i]] Hi; [done|done|lia]. Qed.
Example C32_batch_norm_example : exists m v z o, batch_normalization_feed_forward 2 [[1]; [3]] [[0]; [0]] 1 [2] [5] [0] [0] [[0]; [0]] 3 = Some (m, v, z, o) /\ el m 0 = 2 /\ el v 0 = 1 /\ mel o 0 0 = 4 /\ mel o 1 0 = 6.
Proof.
  assert (Z : forall j, el [0] j = 0) by (intros [|[|j]]; done).
  destruct (bn_ff_run 2 2 [[1]; [3]] [[0]; [0]] 1 [2] [5] [0] [0] [[0]; [0]] 3) as (m & v & t & o & E & _ & _ & _ & _ & G1 & G2); try done; try apply shape2; [lia|].
  exists m, v, t, o. split; [exact E|]. destruct (G1 0%nat ltac:(lia)) as [-> ->]. destruct (G2 0%nat 0%nat ltac:(lia) ltac:(lia)) as [_ ->]. destruct (G2 1%nat 0%nat ltac:(lia) ltac:(lia)) as [_ ->].
  assert (Em : batch_mean (mel [[1]; [3]]) 2 0 = 2) by (unfold batch_mean, mel, el; cbn [sumn nth INR]; field).
  assert (Ev : batch_variance (mel [[1]; [3]]) 2 0 = 1) by (unfold batch_variance; rewrite Em; unfold mel, el; cbn [sumn nth INR]; field).
  unfold batch_norm_output, standardized. rewrite Em, Ev. replace (1 + 3) with (2 * 2) by ring. rewrite R_sqrt.sqrt_square by lra. unfold mel, el. cbn [nth]. repeat split; field.
Qed.
Example C32_scaled_l2_example : exists o, feed_forward_scaled_l2_norm 2 10 [3; 4] [0; 0] = Some (5, o) /\ el o 0 = 6 /\ el o 1 = 8.
Proof.
  assert (En : norm2 2 [3; 4] = 5). { unfold norm2, el. cbn [sumn nth]. replace (0 + 3 ^ 2 + 4 ^ 2) with (5 * 5) by ring. apply R_sqrt.sqrt_square. lra. }
  destruct (C32_scaled_l2 2 10 [3; 4] [0; 0]) as (o & E & _ & _ & G); [done|done|rewrite En; lra|]. rewrite En in E. exists o. split; [exact E|]. rewrite !G by lia. rewrite En. unfold el. cbn [nth]. split; field.
Qed.
(** two groups of one channel of two pixels run to completion and leave the last pixel unwritten *)
Example C32_group_norm_example : exists bns' post', group_normalization_feed_forward [1; 2; 3; 4] 2 1 2 1 1 [Bn [1; 1] [0; 0] [0; 0] [0; 0] [[0; 0]; [0; 0]] [] 1; Bn [1; 1] [0; 0] [0; 0] [0; 0] [[0; 0]; [0; 0]] [] 1] 0 0 [7; 7; 7; 7] (replicate 2 true) = Some (bns', post') /\ el post' 3 = 7.
Proof.
  assert (Z : forall j, el [0; 0] j = 0) by (intros [|[|[|j]]]; done).
  assert (Sh : shape [[0; 0]; [0; 0]] 2 2) by (split; [done|]; intros [|[|i]] Hi; [done|done|lia]).
  destruct (channel_run 1 [1; 2; 3; 4] 0 [[0; 0]; [0; 0]] [1; 1] [0; 0] [0; 0] [0; 0] [7; 7; 7; 7] 1 0 0 1 2 (Some (replicate 2 true)) 1 2 2) as (m & v & t & o & E & L & _); try done; try (cbn; lia).
  { intros ii Hii. rewrite chan_all by lia. lia. }
  destruct (channel_run 1 [1; 2; 3; 4] 1 [[0; 0]; [0; 0]] [1; 1] [0; 0] [0; 0] [0; 0] o 1 0 0 1 2 (Some (replicate 2 true)) 1 2 2) as (m2 & v2 & t2 & o2 & E2 & _); try done; try (rewrite ?L; cbn; lia).
  { intros ii Hii. rewrite chan_all by lia. lia. }
  assert (ER : group_normalization_feed_forward [1; 2; 3; 4] 2 1 2 1 1 [Bn [1; 1] [0; 0] [0; 0] [0; 0] [[0; 0]; [0; 0]] [] 1; Bn [1; 1] [0; 0] [0; 0] [0; 0] [[0; 0]; [0; 0]] [] 1] 0 0 [7; 7; 7; 7] (replicate 2 true) = Some ([Bn [1; 1] [0; 0] m v t [] 1; Bn [1; 1] [0; 0] m2 v2 t2 [] 1], o2)).
  { unfold group_normalization_feed_forward. cbv zeta. rewrite filter_true_replicate by lia. rewrite decide_False by (cbn; lia). change ((2 - 1) / 1 + 1)%nat with 2%nat. change (length (replicate 2 true) + 2 + 1)%nat with 5%nat.
    cbn [gn_loop]. rewrite decide_False by lia. rewrite (rd_rep 2 0) by lia. cbn [mbind option_bind]. match goal with |- context [rd (?b :: ?l) 0] => change (rd (b :: l) 0) with (Some b) end. cbn [mbind option_bind bn_temp bn_gamma bn_beta bn_mean_ bn_var_ bn_outputs bn_epsilon]. rewrite E. cbn [mbind option_bind fst snd]. rewrite wr_Some by (cbn; lia). cbn [mbind option_bind]. rewrite gn_skip_all_run by (cbn; lia). cbn [mbind option_bind insert list_insert Nat.add].
    rewrite decide_False by lia. rewrite (rd_rep 2 1) by lia. cbn [mbind option_bind]. match goal with |- context [rd (?a :: ?b :: ?l) 1] => change (rd (a :: b :: l) 1) with (Some b) end. cbn [mbind option_bind bn_temp bn_gamma bn_beta bn_mean_ bn_var_ bn_outputs bn_epsilon]. rewrite E2. cbn [mbind option_bind fst snd]. rewrite wr_Some by (cbn; lia). cbn [mbind option_bind]. rewrite gn_skip_all_run by (cbn; lia). cbn [mbind option_bind insert list_insert Nat.add].
    rewrite decide_True by lia. done. }
  eexists _, _. split; [exact ER|]. pose proof (C32_group_norm_leaves_last_entry 2 1 1 2 _ _ _ _ _ ltac:(lia) ltac:(lia) ltac:(lia) ER) as H. exact H.
Qed.
Example C49_example : exists s', normalize_scores [3; 1; 2] 3 = Some s' /\ el s' 0 = 1 /\ el s' 1 = 0.
Proof.
  destruct (normalize_scores_run [3; 1; 2] 3) as (s' & mn & mx & E & _ & Hb & (i0 & Hi0 & E0) & (i1 & Hi1 & E1) & G); [done|intros [|[|[|i]]] Hi; unfold el; cbn; try lra; lia|lia|].
  exists s'. split; [exact E|]. rewrite !G by lia. pose proof (Hb 0%nat ltac:(lia)) as B0. pose proof (Hb 1%nat ltac:(lia)) as B1. unfold el in *. cbn [nth] in *.
  assert (Hmn : mn = 1) by (destruct i0 as [|[|[|]]]; cbn in E0; try lia; lra). assert (Hmx : mx = 3) by (destruct i1 as [|[|[|]]]; cbn in E1; try lia; lra). clear E0 E1 B0 B1 Hb G E. rewrite Hmn, Hmx. split; field.
Qed.
