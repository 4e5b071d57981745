(** C33: the optimizers follow their published recurrences on every gradient history *)
From Coquelicot Require Import Coquelicot.
From Verif Require Import BaseLemmas NumLib Optim_Model Optim_Spec Optim_Proofs.
Open Scope R_scope.

(** C33: any number of parameters trained by nesterov_momentum with any gradient function: delta is the velocity of Nesterov's
    accelerated gradient and the stored parameter is its look-ahead point theta + m*v *)
Theorem C33_nesterov : forall lr m mini (G : nat -> (nat -> R) -> nat -> R) theta v t,
  let s := nesterov_run lr m mini G t (fun i => theta i + m * v i, v) in
  let n := nag lr m (fun t x i => G t x i / INR mini) t (theta, v) in
  forall i, s.1 i = n.1 i + m * n.2 i /\ s.2 i = n.2 i.
Proof.
  intros lr m mini G theta v t. cbv zeta. induction t as [|t IH]; [done|]. cbn [nesterov_run nag].
  set (s := nesterov_run _ _ _ _ t _) in *. set (n := nag _ _ _ t _) in *.
  assert (E1 : s.1 = (fun j => n.1 j + m * n.2 j)) by (apply FunctionalExtensionality.functional_extensionality; intros j; apply IH).
  intros i. destruct (IH i) as [I1 I2]. unfold nesterov_momentum. cbn [fst snd]. rewrite <- E1. rewrite I1, I2. split; unfold Rdiv; ring.
Qed.
Print Assumptions C33_nesterov.
(** with momentum 0 it is stochastic gradient descent *)
Theorem C33_nesterov_no_momentum : forall p lr mini dp delta, (nesterov_momentum p lr 0 mini dp delta).1 = p - lr * (dp / INR mini).
Proof. intros. unfold nesterov_momentum. cbn [fst]. ring. Qed.

(** C33: Adam.  Over any history of gradient sums dp, the parameter after t steps is the start minus the sum of the published
    Adam steps on the mini-batch means dp/mini *)
Theorem C33_adam : forall lr b1 b2 eps mini dp p t, 0 <= b1 < 1 -> 0 <= b2 < 1 ->
  tr_p (run (adam_step lr b1 b2 eps mini) dp t (train0 p b1 b2 1)) = p - sumn t (fun i => adam_update lr b1 b2 eps (fun i => dp i / INR mini) i).
Proof. intros lr b1 b2 eps mini dp p t H1 H2. induction t as [|t IH]; [cbn; ring|]. rewrite adam_one by done. rewrite IH. cbn [sumn]. ring. Qed.
Print Assumptions C33_adam.

(** consequences: zero gradients never move the parameter; a constant gradient c moves it by lr*c/(|c|+eps) every step; no
    step is longer than lr*sqrt((1-b1)/(1-b2)) (10*lr for the defaults); the update does not depend on the scale of the
    gradients when eps is 0 *)
Theorem C33_adam_zero_gradient : forall lr b1 b2 eps mini p t, 0 <= b1 < 1 -> 0 <= b2 < 1 -> tr_p (run (adam_step lr b1 b2 eps mini) (fun _ => 0) t (train0 p b1 b2 1)) = p.
Proof.
  intros. rewrite C33_adam by done. rewrite sumn_0; [ring|]. intros i Hi. unfold adam_update. rewrite (ewma_ext b1 _ (fun _ => 0)) by (intros; unfold Rdiv; ring). rewrite ewma_const by done. unfold Rdiv. ring.
Qed.
Theorem C33_adam_constant_gradient : forall lr b1 b2 eps c t, 0 <= b1 < 1 -> 0 <= b2 < 1 -> adam_update lr b1 b2 eps (fun _ => c) t = lr * c / (Rabs c + eps).
Proof.
  intros. unfold adam_update. rewrite !ewma_const by done. replace (c ^ 2) with (Rsqr c) by (unfold Rsqr; ring). rewrite sqrt_Rsqr_abs. done.
Qed.
Lemma adam_abs lr b1 b2 eps g t : 0 <= lr -> 0 < eps -> 0 <= b1 <= b2 -> b2 < 1 -> Rabs (adam_update lr b1 b2 eps g t) <= lr * R_sqrt.sqrt ((1 - b1) / (1 - b2)).
Proof.
  intros Hl He H1 H2. pose proof (ewma_moment b1 b2 g t H1 H2) as M. pose proof (ewma_sq_nonneg b2 g t ltac:(lra)) as Hv. unfold adam_update.
  set (m := ewma b1 g t) in *. set (v := ewma b2 (fun i => g i ^ 2) t) in *. pose proof (R_sqrt.sqrt_pos v) as Hs.
  assert (Hm : Rabs m <= R_sqrt.sqrt ((1 - b1) / (1 - b2)) * R_sqrt.sqrt v).
  { rewrite <- R_sqrt.sqrt_mult_alt by (apply Rmult_le_pos; [lra|apply Rlt_le, Rinv_0_lt_compat; lra]). rewrite <- sqrt_Rsqr_abs. apply R_sqrt.sqrt_le_1_alt. unfold Rsqr. replace (m * m) with (m ^ 2) by ring. exact M. }
  unfold Rdiv at 1. rewrite !Rabs_mult, (Rabs_right lr) by lra. rewrite (Rabs_right (/ _)) by (apply Rle_ge, Rlt_le, Rinv_0_lt_compat; lra). rewrite Rmult_assoc. apply Rmult_le_compat_l; [done|].
  pose proof (R_sqrt.sqrt_pos ((1 - b1) / (1 - b2))) as Hk. apply (Rmult_le_reg_r (R_sqrt.sqrt v + eps)); [lra|]. rewrite Rmult_assoc, Rinv_l by lra. nra.
Qed.
Theorem C33_adam_step_bounded : forall lr b1 b2 eps mini dp p t, 0 <= lr -> 0 < eps -> 0 <= b1 <= b2 -> b2 < 1 ->
  let s k := tr_p (run (adam_step lr b1 b2 eps mini) dp k (train0 p b1 b2 1)) in Rabs (s (S t) - s t) <= lr * R_sqrt.sqrt ((1 - b1) / (1 - b2)).
Proof.
  intros lr b1 b2 eps mini dp p t Hl He H1 H2 s. unfold s. rewrite adam_one by lra.
  replace (_ - _ - _) with (- adam_update lr b1 b2 eps (fun i => dp i / INR mini) t) by ring. rewrite Rabs_Ropp. by apply adam_abs.
Qed.
Print Assumptions C33_adam_step_bounded.
Theorem C33_adam_scale_invariant : forall lr b1 b2 c g t, 0 < c -> 0 <= b1 < 1 -> 0 <= b2 < 1 -> adam_update lr b1 b2 0 (fun i => c * g i) t = adam_update lr b1 b2 0 g t.
Proof.
  intros lr b1 b2 c g t Hc H1 H2. unfold adam_update. rewrite ewma_scal. rewrite (ewma_ext b2 (fun i => (c * g i) ^ 2) (fun i => (c * c) * g i ^ 2)) by (intros; ring). rewrite ewma_scal. pose proof (ewma_sq_nonneg b2 g t H2) as Hv.
  rewrite R_sqrt.sqrt_mult by nra. rewrite R_sqrt.sqrt_square by lra. rewrite !Rplus_0_r. set (q := R_sqrt.sqrt _). destruct (Req_dec q 0) as [->|Hq]; [unfold Rdiv; rewrite Rmult_0_r, Rinv_0; ring|field; lra].
Qed.
(** the moments are convex averages: the first moment lies between the smallest and the largest mini-batch mean seen *)
Theorem C33_adam_moment_in_range : forall b g t lo hi, 0 <= b < 1 -> (forall i, (i <= t)%nat -> lo <= g i <= hi) -> lo <= ewma b g t <= hi.
Proof. intros. by apply ewma_bounds. Qed.

(** C33: DiffGrad takes the Adam step damped by a friction in [1/2,1) *)
Theorem C33_diff_grad : forall lr b1 b2 eps mini dp p t, 0 <= b1 < 1 -> 0 <= b2 < 1 ->
  let s k := tr_p (run (diff_grad_step lr b1 b2 eps mini) dp k (train0 p b1 b2 1)) in
  exists f, 1 / 2 <= f < 1 /\ s (S t) = s t - f * adam_update lr b1 b2 eps (fun i => dp i / INR mini) t.
Proof. intros lr b1 b2 eps mini dp p t H1 H2 s. eexists. split; [apply abs_sigmoid_bounds|]. by apply diff_one. Qed.
Print Assumptions C33_diff_grad.

(** C33: AdaMod replaces Adam's effective learning rate n_t by its minimum with a running average of n_0..n_t, so its step has
    the sign of Adam's and is never longer *)
Theorem C33_adamod : forall lr b1 b2 eps b3 mini dp p t, 0 <= b1 < 1 -> 0 <= b2 < 1 -> 0 <= b3 <= 1 -> 0 <= lr -> 0 < eps ->
  let g i := dp i / INR mini in
  let n i := lr / (R_sqrt.sqrt (ewma b2 (fun i => g i ^ 2) i) + eps) in
  let s k := tr_p (run (adamod_step lr b1 b2 eps b3 mini) dp k (train0 p b1 b2 1)) in
  exists n', n' = Rmin (n t) ((1 - b3) * sumn (S t) (fun i => b3 ^ (t - i) * n i)) /\ 0 <= n' /\ s (S t) = s t - n' * ewma b1 g t /\
    Rabs (s (S t) - s t) <= Rabs (adam_update lr b1 b2 eps g t).
Proof.
  intros lr b1 b2 eps b3 mini dp p t H1 H2 H3 Hl He g n s.
  assert (Hw : wsum b3 n (S t) = sumn (S t) (fun i => b3 ^ (t - i) * n i)) by (unfold wsum; apply sumn_ext; intros; do 2 f_equal; lia).
  assert (Hn : forall i, 0 <= n i) by (intros i; unfold n; apply Rmult_le_pos; [done|apply Rlt_le, Rinv_0_lt_compat; pose proof (R_sqrt.sqrt_pos (ewma b2 (fun i => g i ^ 2) i)); lra]).
  exists (Rmin (n t) ((1 - b3) * sumn (S t) (fun i => b3 ^ (t - i) * n i))). split; [done|].
  assert (Hp : 0 <= Rmin (n t) ((1 - b3) * sumn (S t) (fun i => b3 ^ (t - i) * n i))).
  { apply Rmin_glb; [apply Hn|]. apply Rmult_le_pos; [lra|]. apply sumn_nonneg. intros i Hi. apply Rmult_le_pos; [apply pow_le; lra|apply Hn]. }
  split; [exact Hp|]. assert (E : s (S t) = s t - Rmin (n t) ((1 - b3) * sumn (S t) (fun i => b3 ^ (t - i) * n i)) * ewma b1 g t) by (rewrite <- Hw; unfold s; rewrite adamod_one by done; done).
  split; [exact E|]. rewrite E. replace (_ - _ - _) with (- (Rmin (n t) ((1 - b3) * sumn (S t) (fun i => b3 ^ (t - i) * n i)) * ewma b1 g t)) by ring. rewrite Rabs_Ropp, Rabs_mult.
  replace (adam_update lr b1 b2 eps g t) with (n t * ewma b1 g t) by (unfold adam_update, n, Rdiv; ring). rewrite Rabs_mult. apply Rmult_le_compat_r; [apply Rabs_pos|]. rewrite !Rabs_right by (apply Rle_ge; try apply Hn; exact Hp). apply Rmin_l.
Qed.
Print Assumptions C33_adamod.

(** C33: RAdam with the step counter started at 1 takes the un-adapted momentum step while rho_t <= 4 and the rectified adaptive
    step afterwards, with a rectification in (0,1] *)
Theorem C33_radam : forall E lr b1 b2 mini dp p t, 0 <= b1 < 1 -> 0 <= b2 < 1 ->
  let g i := dp i / INR mini in
  let s k := tr_p (run (radam_step E lr b1 b2 mini) dp k (train0 p b1 b2 1)) in
  (rho b2 (S t) <= 4 -> s (S t) = s t - lr * ewma b1 g t) /\
  (rho b2 (S t) > 4 -> 0 < rectification b2 (S t) <= 1 /\
    s (S t) = s t - lr * rectification b2 (S t) * ewma b1 g t * R_sqrt.sqrt (1 - b2 ^ S t) / (R_sqrt.sqrt ((1 - b2 ^ S t) * ewma b2 (fun i => g i ^ 2) t) + E)).
Proof.
  intros E lr b1 b2 mini dp p t H1 H2 g s. pose proof (radam_one b1 b2 mini dp H1 H2 E lr p t) as R. cbv zeta in R. split; intros Hr.
  - rewrite decide_False in R by lra. exact R.
  - rewrite decide_True in R by lra. split; [by apply rect_bounds|]. unfold s. rewrite R. unfold g, Rdiv. ring.
Qed.
Print Assumptions C33_radam.
(** the first step is always un-adapted: rho_1 = 1 *)
Theorem C33_radam_warm_up : forall b2, 0 <= b2 < 1 -> rho b2 1 = 1.
Proof. intros b2 H. unfold rho, rho_inf. cbn [INR pow]. rewrite Rmult_1_r. field. lra. Qed.
(** refuted for a counter that starts at 0 (policy_gradient.c:99): the very first step, whose second moment rests on one
    gradient, is already adaptive and not rectified *)
Theorem C33_radam_t0_skips_warm_up : forall E lr b1 b2 mini dp p, 0 <= b1 < 1 -> 3 / 5 < b2 < 1 ->
  tr_p (run (radam_step E lr b1 b2 mini) dp 1 (train0 p b1 b2 0)) = p - lr * (dp 0%nat / INR mini) * R_sqrt.sqrt (1 - b2) / (R_sqrt.sqrt ((1 - b2) * (dp 0%nat / INR mini) ^ 2) + E).
Proof.
  intros E lr b1 b2 mini dp p H1 H2. cbn [run]. unfold train0, radam_step, radam_algorithm, after. cbn [tr_p tr_d1 tr_d2 tr_bb1 tr_bb2 tr_t INR].
  assert (Hi : 2 / (1 - b2) - 1 > 4). { assert (5 < 2 / (1 - b2)); [|lra]. apply (Rmult_lt_reg_r (1 - b2)); [lra|]. unfold Rdiv. rewrite Rmult_assoc, Rinv_l by lra. lra. }
  replace (2 / (1 - b2) - 1 - 2 * 0 * b2 / (1 - b2)) with (2 / (1 - b2) - 1) by (unfold Rdiv; ring). rewrite decide_True by (unfold RADAM_THRESHOLD; lra). cbn [tr_p fst snd].
  set (r := 2 / (1 - b2) - 1) in *. replace ((r - 4) * (r - 2) * r / ((r - 4) * (r - 2) * r)) with 1 by (field; repeat split; lra). rewrite R_sqrt.sqrt_1.
  replace (b2 * 0 + (1 - b2) * (dp 0%nat / INR mini * (dp 0%nat / INR mini))) with ((1 - b2) * (dp 0%nat / INR mini) ^ 2) by ring.
  replace ((b1 * 0 + (1 - b1) * (dp 0%nat / INR mini)) / (1 - b1)) with (dp 0%nat / INR mini) by (generalize (dp 0%nat / INR mini); intros; field; lra). unfold Rdiv. ring.
Qed.
Print Assumptions C33_radam_t0_skips_warm_up.

(** concrete cases *)
Example C33_adam_example : tr_p (run (adam_step (1/10) (1/2) (3/4) (1/100) 2) (fun _ => 4) 1 (train0 5 (1/2) (3/4) 1)) = 5 - 1/10 * 2 / (2 + 1/100).
Proof.
  rewrite C33_adam by lra. cbn [sumn]. unfold adam_update. rewrite (ewma_ext (1/2) _ (fun _ => 2)) by (intros; cbn [INR]; field). rewrite (ewma_ext (3/4) _ (fun _ => 4)) by (intros; cbn [INR]; field).
  rewrite !ewma_const by lra. replace 4 with (2 * 2) by ring. rewrite R_sqrt.sqrt_square by lra. ring.
Qed.
Example C33_nesterov_example : nesterov_momentum 1 (1/10) (9/10) 2 4 (1/2) = (1 + (81/100 * (1/2) - 19/10 * (1/10) * 2), 9/20 - 2/10).
Proof. unfold nesterov_momentum. cbn [INR]. f_equal; field. Qed.
Example C33_radam_example : 0 <= 9/10 < 1 /\ rho (9/10) 1 <= 4 /\ rho (4/5) 10 > 4.
Proof.
  split; [lra|]. split; [rewrite C33_radam_warm_up by lra; lra|]. unfold rho, rho_inf. replace (INR 10) with 10 by (cbn; ring). replace ((4 / 5) ^ 10) with (1048576 / 9765625) by field.
  replace (2 / (1 - 4 / 5) - 1 - 2 * 10 * (1048576 / 9765625) / (1 - 1048576 / 9765625)) with (9 - 20971520 / 8717049) by field. lra.
Qed.
