(** Proofs about the optimizers *)
From Coquelicot Require Import Coquelicot.
From Verif Require Import BaseLemmas NumLib Optim_Model Optim_Spec.
Open Scope R_scope.

Definition wsum (b : R) (x : nat -> R) (t : nat) : R := sumn t (fun i => b ^ (t - 1 - i) * x i).
Lemma wsum_S b x t : wsum b x (S t) = b * wsum b x t + x t.
Proof.
  unfold wsum. cbn [sumn]. replace (S t - 1 - t)%nat with 0%nat by lia. cbn [pow]. rewrite Rmult_1_l. f_equal. rewrite <- sumn_scal_l. apply sumn_ext. intros i Hi.
  replace (S t - 1 - i)%nat with (S (t - 1 - i)) by lia. rewrite <- tech_pow_Rmult. ring.
Qed.
Lemma weights b t : (1 - b) * sumn (S t) (fun i => b ^ (t - i)) = 1 - b ^ S t.
Proof.
  assert (H : forall t, (1 - b) * wsum b (fun _ => 1) t = 1 - b ^ t).
  { clear t. induction t as [|t IH]; [unfold wsum; cbn; ring|]. rewrite wsum_S. rewrite <- (tech_pow_Rmult b t). rewrite Rmult_plus_distr_l. replace ((1 - b) * (b * wsum b (fun _ => 1) t)) with (b * ((1 - b) * wsum b (fun _ => 1) t)) by ring. rewrite IH. ring. }
  rewrite <- (H (S t)). f_equal. unfold wsum. apply sumn_ext. intros i Hi. rewrite Rmult_1_r. f_equal. lia.
Qed.
Lemma pow_lt_1 b t : 0 <= b < 1 -> b ^ S t < 1.
Proof. intros [H0 H1]. apply (Rle_lt_trans _ b); [|done]. induction t as [|t IH]; [cbn; lra|]. change (b ^ S (S t)) with (b * b ^ S t). nra. Qed.
Lemma weights_pos b t : 0 <= b < 1 -> 0 < sumn (S t) (fun i => b ^ (t - i)).
Proof. intros H. pose proof (weights b t) as E. pose proof (pow_lt_1 b t H). apply (Rmult_lt_reg_l (1 - b)); [lra|]. rewrite E. lra. Qed.
Lemma ewma_wsum b x t : 0 <= b < 1 -> (1 - b) * wsum b x (S t) / (1 - b ^ S t) = ewma b x t.
Proof.
  intros H. rewrite <- weights. unfold ewma. replace (wsum b x (S t)) with (sumn (S t) (fun i => b ^ (t - i) * x i)) by (unfold wsum; apply sumn_ext; intros; do 2 f_equal; lia).
  pose proof (weights_pos b t H). field. split; lra.
Qed.

(** weighted Cauchy-Schwarz *)
Lemma cauchy_w n (w g : nat -> R) : (forall i, (i < n)%nat -> 0 <= w i) -> sumn n (fun i => w i * g i) ^ 2 <= sumn n w * sumn n (fun i => w i * g i ^ 2).
Proof.
  induction n as [|n IH]; intros Hw; [cbn; lra|]. cbn [sumn]. assert (Hw' : forall i, (i < n)%nat -> 0 <= w i) by (intros; apply Hw; lia). specialize (IH Hw'). pose proof (Hw n ltac:(lia)) as Hn.
  assert (HW : 0 <= sumn n w) by (apply sumn_nonneg; intros; apply Hw'; lia). assert (HQ : 0 <= sumn n (fun i => w i * g i ^ 2)) by (apply sumn_nonneg; intros; apply Rmult_le_pos; [apply Hw'; lia|apply pow2_ge_0]).
  set (W := sumn n w) in *. set (Q := sumn n (fun i => w i * g i ^ 2)) in *. set (S := sumn n (fun i => w i * g i)) in *.
  assert (H : 2 * S * g n <= W * g n ^ 2 + Q).
  { destruct (Req_dec W 0) as [E|Hne].
    - rewrite E in IH |- *. assert (S = 0) by nra. nra.
    - assert (0 < W) by lra. apply (Rmult_le_reg_l W); [done|]. assert (0 <= (W * g n - S) ^ 2) by apply pow2_ge_0. nra. }
  nra.
Qed.
Lemma ewma_bounds b x t lo hi : 0 <= b < 1 -> (forall i, (i <= t)%nat -> lo <= x i <= hi) -> lo <= ewma b x t <= hi.
Proof.
  intros Hb Hx. pose proof (weights_pos b t Hb) as Hp. unfold ewma. assert (E : forall c, sumn (S t) (fun i => b ^ (t - i) * c) = sumn (S t) (fun i => b ^ (t - i)) * c) by (intros; apply sumn_scal_r).
  split; apply (Rmult_le_reg_r (sumn (S t) (fun i => b ^ (t - i)))); try done; unfold Rdiv; rewrite Rmult_assoc, Rinv_l, Rmult_1_r by lra; rewrite Rmult_comm, <- E; apply sumn_le; intros i Hi; (apply Rmult_le_compat_l; [apply pow_le; lra|apply Hx; lia]).
Qed.
Lemma ewma_scal b x t c : ewma b (fun i => c * x i) t = c * ewma b x t.
Proof. unfold ewma. rewrite (sumn_ext (S t) _ (fun i => c * (b ^ (t - i) * x i))) by (intros; ring). rewrite sumn_scal_l. unfold Rdiv. ring. Qed.
Lemma ewma_ext b x y t : (forall i, (i <= t)%nat -> x i = y i) -> ewma b x t = ewma b y t.
Proof. intros H. unfold ewma. f_equal. apply sumn_ext. intros i Hi. rewrite H by lia. done. Qed.
Lemma ewma_const b c t : 0 <= b < 1 -> ewma b (fun _ => c) t = c.
Proof. intros H. destruct (ewma_bounds b (fun _ => c) t c c H); [intros; lra|lra]. Qed.
Lemma ewma_sq_nonneg b g t : 0 <= b < 1 -> 0 <= ewma b (fun i => g i ^ 2) t.
Proof. intros H. unfold ewma. pose proof (weights_pos b t H). apply Rmult_le_pos; [|apply Rlt_le, Rinv_0_lt_compat; done]. apply sumn_nonneg. intros. apply Rmult_le_pos; [apply pow_le; lra|apply pow2_ge_0]. Qed.
(** first moment against second moment *)
Lemma ewma_moment b1 b2 g t : 0 <= b1 <= b2 -> b2 < 1 -> ewma b1 g t ^ 2 <= (1 - b1) / (1 - b2) * ewma b2 (fun i => g i ^ 2) t.
Proof.
  intros H1 H2. pose proof (weights_pos b1 t ltac:(lra)) as P1. pose proof (weights_pos b2 t ltac:(lra)) as P2.
  pose proof (weights b1 t) as E1. pose proof (weights b2 t) as E2. pose proof (cauchy_w (S t) (fun i => b1 ^ (t - i)) g ltac:(intros; apply pow_le; lra)) as C.
  set (W1 := sumn (S t) (fun i => b1 ^ (t - i))) in *. set (W2 := sumn (S t) (fun i => b2 ^ (t - i))) in *.
  unfold ewma. fold W1 W2. set (S1 := sumn (S t) (fun i => b1 ^ (t - i) * g i)) in *. set (Q1 := sumn (S t) (fun i => b1 ^ (t - i) * g i ^ 2)) in *. set (Q2 := sumn (S t) (fun i => b2 ^ (t - i) * g i ^ 2)).
  assert (HQ : Q1 <= Q2) by (apply sumn_le; intros i Hi; apply Rmult_le_compat_r; [apply pow2_ge_0|apply pow_incr; lra]).
  assert (HQ1 : 0 <= Q1) by (apply sumn_nonneg; intros; apply Rmult_le_pos; [apply pow_le; lra|apply pow2_ge_0]).
  assert (Hp : b1 ^ S t <= b2 ^ S t) by (apply pow_incr; lra).
  assert (HW : (1 - b2) * W2 <= (1 - b1) * W1) by lra.
  apply (Rmult_le_reg_r (W1 * W1)); [nra|]. replace ((S1 / W1) ^ 2 * (W1 * W1)) with (S1 ^ 2) by (field; lra).
  replace ((1 - b1) / (1 - b2) * (Q2 / W2) * (W1 * W1)) with (W1 * Q2 * ((1 - b1) * W1 / ((1 - b2) * W2))) by (field; lra).
  apply (Rle_trans _ (W1 * Q1)); [exact C|]. apply (Rle_trans _ (W1 * Q2 * 1)); [rewrite Rmult_1_r; apply Rmult_le_compat_l; lra|]. apply Rmult_le_compat_l; [nra|].
  apply (Rmult_le_reg_r ((1 - b2) * W2)); [nra|]. unfold Rdiv. rewrite Rmult_assoc, Rinv_l by nra. lra.
Qed.

(** state after t steps *)
Lemma run_state (step : R -> train -> train) b1 b2 mini dp p t0 :
  (forall d s, tr_d1 (step d s) = b1 * tr_d1 s + (1 - b1) * (d / INR mini) /\ tr_d2 (step d s) = b2 * tr_d2 s + (1 - b2) * (d / INR mini * (d / INR mini)) /\ tr_bb1 (step d s) = tr_bb1 s * b1 /\ tr_bb2 (step d s) = tr_bb2 s * b2 /\ tr_t (step d s) = S (tr_t s)) ->
  forall t, let s := run step dp t (train0 p b1 b2 t0) in
    tr_d1 s = (1 - b1) * wsum b1 (fun i => dp i / INR mini) t /\ tr_d2 s = (1 - b2) * wsum b2 (fun i => (dp i / INR mini) ^ 2) t /\ tr_bb1 s = b1 ^ S t /\ tr_bb2 s = b2 ^ S t /\ tr_t s = (t0 + t)%nat.
Proof.
  intros H. induction t as [|t IH]; [cbn; unfold wsum; cbn; repeat split; try ring; lia|]. cbv zeta in *. cbn [run].
  destruct (H (dp t) (run step dp t (train0 p b1 b2 t0))) as (-> & -> & -> & -> & ->). destruct IH as (-> & -> & -> & -> & ->). rewrite !wsum_S. rewrite <- (tech_pow_Rmult b1 (S t)), <- (tech_pow_Rmult b2 (S t)). repeat split; try ring; lia.
Qed.
Lemma adam_shape lr b1 b2 eps mini d s : tr_d1 (adam_step lr b1 b2 eps mini d s) = b1 * tr_d1 s + (1 - b1) * (d / INR mini) /\ tr_d2 (adam_step lr b1 b2 eps mini d s) = b2 * tr_d2 s + (1 - b2) * (d / INR mini * (d / INR mini)) /\ tr_bb1 (adam_step lr b1 b2 eps mini d s) = tr_bb1 s * b1 /\ tr_bb2 (adam_step lr b1 b2 eps mini d s) = tr_bb2 s * b2 /\ tr_t (adam_step lr b1 b2 eps mini d s) = S (tr_t s).
Proof. done. Qed.
Lemma radam_shape E lr b1 b2 mini d s : tr_d1 (radam_step E lr b1 b2 mini d s) = b1 * tr_d1 s + (1 - b1) * (d / INR mini) /\ tr_d2 (radam_step E lr b1 b2 mini d s) = b2 * tr_d2 s + (1 - b2) * (d / INR mini * (d / INR mini)) /\ tr_bb1 (radam_step E lr b1 b2 mini d s) = tr_bb1 s * b1 /\ tr_bb2 (radam_step E lr b1 b2 mini d s) = tr_bb2 s * b2 /\ tr_t (radam_step E lr b1 b2 mini d s) = S (tr_t s).
Proof. unfold radam_step, radam_algorithm. destruct (decide _); done. Qed.
Lemma diff_shape lr b1 b2 eps mini d s : tr_d1 (diff_grad_step lr b1 b2 eps mini d s) = b1 * tr_d1 s + (1 - b1) * (d / INR mini) /\ tr_d2 (diff_grad_step lr b1 b2 eps mini d s) = b2 * tr_d2 s + (1 - b2) * (d / INR mini * (d / INR mini)) /\ tr_bb1 (diff_grad_step lr b1 b2 eps mini d s) = tr_bb1 s * b1 /\ tr_bb2 (diff_grad_step lr b1 b2 eps mini d s) = tr_bb2 s * b2 /\ tr_t (diff_grad_step lr b1 b2 eps mini d s) = S (tr_t s).
Proof. done. Qed.
Lemma adamod_shape lr b1 b2 eps b3 mini d s : tr_d1 (adamod_step lr b1 b2 eps b3 mini d s) = b1 * tr_d1 s + (1 - b1) * (d / INR mini) /\ tr_d2 (adamod_step lr b1 b2 eps b3 mini d s) = b2 * tr_d2 s + (1 - b2) * (d / INR mini * (d / INR mini)) /\ tr_bb1 (adamod_step lr b1 b2 eps b3 mini d s) = tr_bb1 s * b1 /\ tr_bb2 (adamod_step lr b1 b2 eps b3 mini d s) = tr_bb2 s * b2 /\ tr_t (adamod_step lr b1 b2 eps b3 mini d s) = S (tr_t s).
Proof. done. Qed.

Section hist.
Context (b1 b2 : R) (mini : nat) (dp : nat -> R) (Hb1 : 0 <= b1 < 1) (Hb2 : 0 <= b2 < 1).
Notation g := (fun i => dp i / INR mini).
Lemma mhat t : (b1 * ((1 - b1) * wsum b1 g t) + (1 - b1) * (dp t / INR mini)) / (1 - b1 ^ S t) = ewma b1 g t.
Proof. rewrite <- ewma_wsum by done. rewrite wsum_S. f_equal. ring. Qed.
Lemma vhat t : (b2 * ((1 - b2) * wsum b2 (fun i => (dp i / INR mini) ^ 2) t) + (1 - b2) * (dp t / INR mini * (dp t / INR mini))) / (1 - b2 ^ S t) = ewma b2 (fun i => g i ^ 2) t.
Proof. rewrite <- ewma_wsum by done. rewrite wsum_S. f_equal. ring. Qed.
Lemma adam_one lr eps p t : tr_p (run (adam_step lr b1 b2 eps mini) dp (S t) (train0 p b1 b2 1)) = tr_p (run (adam_step lr b1 b2 eps mini) dp t (train0 p b1 b2 1)) - adam_update lr b1 b2 eps g t.
Proof.
  cbn [run]. destruct (run_state (adam_step lr b1 b2 eps mini) b1 b2 mini dp p 1 (adam_shape lr b1 b2 eps mini) t) as (E1 & E2 & E3 & E4 & _). cbv zeta in *.
  set (s := run _ dp t _) in *. unfold adam_step, adam_algorithm, after. cbn [tr_p fst snd]. rewrite E1, E2, E3, E4. rewrite vhat. unfold adam_update. rewrite <- mhat. f_equal. unfold Rdiv. ring.
Qed.
Lemma diff_one lr eps p t : tr_p (run (diff_grad_step lr b1 b2 eps mini) dp (S t) (train0 p b1 b2 1)) = tr_p (run (diff_grad_step lr b1 b2 eps mini) dp t (train0 p b1 b2 1)) - abs_sigmoid ((match t with O => 0 | S t => dp t / INR mini end) - dp t / INR mini) * adam_update lr b1 b2 eps g t.
Proof.
  cbn [run]. destruct (run_state (diff_grad_step lr b1 b2 eps mini) b1 b2 mini dp p 1 (diff_shape lr b1 b2 eps mini) t) as (E1 & E2 & E3 & E4 & _). cbv zeta in *.
  assert (E5 : tr_d3 (run (diff_grad_step lr b1 b2 eps mini) dp t (train0 p b1 b2 1)) = match t with O => 0 | S t => dp t / INR mini end) by (destruct t; done).
  set (s := run _ dp t _) in *. unfold diff_grad_step, adam_diff_grad_algorithm, after. cbn [tr_p fst snd]. rewrite E1, E2, E3, E4, E5. rewrite vhat. unfold adam_update. rewrite <- mhat. f_equal. unfold Rdiv. ring.
Qed.
Lemma adamod_one lr eps b3 p t : 0 <= b3 <= 1 -> 0 <= lr -> 0 < eps ->
  let n i := lr / (R_sqrt.sqrt (ewma b2 (fun i => g i ^ 2) i) + eps) in
  tr_p (run (adamod_step lr b1 b2 eps b3 mini) dp (S t) (train0 p b1 b2 1)) = tr_p (run (adamod_step lr b1 b2 eps b3 mini) dp t (train0 p b1 b2 1)) - Rmin (n t) ((1 - b3) * wsum b3 n (S t)) * ewma b1 g t.
Proof.
  intros H3 Hl He n. assert (H : forall t, tr_d3 (run (adamod_step lr b1 b2 eps b3 mini) dp t (train0 p b1 b2 1)) = (1 - b3) * wsum b3 n t).
  { clear t. induction t as [|t IH]; [unfold wsum; cbn; ring|]. cbn [run]. destruct (run_state (adamod_step lr b1 b2 eps b3 mini) b1 b2 mini dp p 1 (adamod_shape lr b1 b2 eps b3 mini) t) as (E1 & E2 & E3 & E4 & _). cbv zeta in *.
    set (s := run _ dp t _) in *. unfold adamod_step, adamod, after. cbn [tr_d3 fst snd]. rewrite E2, E4, vhat, IH, wsum_S. fold (n t). ring. }
  cbn [run]. destruct (run_state (adamod_step lr b1 b2 eps b3 mini) b1 b2 mini dp p 1 (adamod_shape lr b1 b2 eps b3 mini) t) as (E1 & E2 & E3 & E4 & _). cbv zeta in *. specialize (H t).
  set (s := run _ dp t _) in *. unfold adamod_step, adamod, after. cbn [tr_p fst snd]. rewrite E1, E2, E3, E4, H, vhat, mhat. fold (n t). rewrite wsum_S.
  replace (b3 * ((1 - b3) * wsum b3 n t) + (1 - b3) * n t) with ((1 - b3) * (b3 * wsum b3 n t + n t)) by ring. f_equal. f_equal. unfold Rmin. destruct (Rle_dec _ _), (decide _); lra.
Qed.
Lemma radam_one E lr p t : let s k := run (radam_step E lr b1 b2 mini) dp k (train0 p b1 b2 1) in
  tr_p (s (S t)) = tr_p (s t) - (if decide (rho b2 (S t) > 4) then lr * rectification b2 (S t) * ewma b1 g t * (R_sqrt.sqrt (1 - b2 ^ S t) / (R_sqrt.sqrt ((1 - b2 ^ S t) * ewma b2 (fun i => g i ^ 2) t) + E)) else lr * ewma b1 g t).
Proof.
  intros s. unfold s. cbn [run]. destruct (run_state (radam_step E lr b1 b2 mini) b1 b2 mini dp p 1 (radam_shape E lr b1 b2 mini) t) as (E1 & E2 & E3 & E4 & E5). cbv zeta in *.
  set (st := run _ dp t _) in *. unfold radam_step, radam_algorithm, after. rewrite E1, E2, E3, E4, E5. rewrite mhat. change (1 + t)%nat with (S t). change (2 / (1 - b2) - 1) with (rho_inf b2).
  change (rho_inf b2 - 2 * INR (S t) * b2 ^ S t / (1 - b2 ^ S t)) with (rho b2 (S t)). change RADAM_THRESHOLD with 4.
  replace (b2 * ((1 - b2) * wsum b2 (fun i => (dp i / INR mini) ^ 2) t) + (1 - b2) * (dp t / INR mini * (dp t / INR mini))) with ((1 - b2 ^ S t) * ewma b2 (fun i => g i ^ 2) t) by (rewrite <- vhat; pose proof (pow_lt_1 b2 t Hb2); generalize (b2 * ((1 - b2) * wsum b2 (fun i => (dp i / INR mini) ^ 2) t) + (1 - b2) * (dp t / INR mini * (dp t / INR mini))); intros; field; lra).
  destruct (decide _); cbn [tr_p fst snd]; done.
Qed.
End hist.
Lemma rho_le b2 t : 0 <= b2 < 1 -> rho b2 (S t) <= rho_inf b2.
Proof.
  intros H. unfold rho. pose proof (pow_lt_1 b2 t H). assert (0 <= b2 ^ S t) by (apply pow_le; lra). assert (0 <= INR (S t)) by apply pos_INR.
  assert (0 <= 2 * INR (S t) * b2 ^ S t / (1 - b2 ^ S t)) by (apply Rmult_le_pos; [nra|apply Rlt_le, Rinv_0_lt_compat; lra]). lra.
Qed.
Lemma rect_bounds b2 t : 0 <= b2 < 1 -> rho b2 (S t) > 4 -> 0 < rectification b2 (S t) <= 1.
Proof.
  intros H Hr. pose proof (rho_le b2 t H) as Hl. unfold rectification. set (r := rho b2 (S t)) in *. set (ri := rho_inf b2) in *.
  assert (Hd : 0 < (ri - 4) * (ri - 2) * r) by (apply Rmult_lt_0_compat; [apply Rmult_lt_0_compat|]; lra).
  assert (Hn : 0 < (r - 4) * (r - 2) * ri) by (apply Rmult_lt_0_compat; [apply Rmult_lt_0_compat|]; lra).
  assert (Hle : (r - 4) * (r - 2) * ri <= (ri - 4) * (ri - 2) * r). { assert (0 <= (ri - r) * (r * ri - 8)) by (apply Rmult_le_pos; nra). nra. }
  split; [apply R_sqrt.sqrt_lt_R0; apply Rmult_lt_0_compat; [done|by apply Rinv_0_lt_compat]|]. replace 1 with (R_sqrt.sqrt 1) by apply R_sqrt.sqrt_1. apply R_sqrt.sqrt_le_1_alt. apply (Rmult_le_reg_r ((ri - 4) * (ri - 2) * r)); [done|]. unfold Rdiv. rewrite Rmult_assoc, Rinv_l by lra. lra.
Qed.
Lemma abs_sigmoid_bounds x : 1 / 2 <= abs_sigmoid x < 1.
Proof.
  unfold abs_sigmoid. pose proof (exp_pos (- Rabs x)). assert (exp (- Rabs x) <= 1) by (rewrite <- exp_0; pose proof (Rabs_pos x); destruct (Req_dec (Rabs x) 0) as [->|]; [rewrite Ropp_0; lra|apply Rlt_le, exp_increasing; lra]).
  split.
  - apply (Rmult_le_reg_r (1 + exp (- Rabs x))); [lra|]. unfold Rdiv. rewrite (Rmult_assoc 1 (/ (1 + _))), Rinv_l by lra. lra.
  - apply (Rmult_lt_reg_r (1 + exp (- Rabs x))); [lra|]. unfold Rdiv. rewrite Rmult_assoc, Rinv_l by lra. lra.
Qed.
