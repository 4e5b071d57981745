(** C17: learning-rate schedules. *)
From Verif Require Import RealSum LrDecay_Model.
Open Scope R_scope.

Lemma early_spec e t : (0 < e)%nat -> lr_returns_early e t = Some (e <? t)%nat.
Proof.
  intros He. unfold lr_returns_early. destruct (Nat.leb_spec e t), (Nat.ltb_spec e t); try lia; [| |done].
  - rewrite decide_False by lia. destruct (Nat.eqb_spec (t mod e) 0); [|done]. cbn [negb].
    rewrite (Nat.mod_small e t) by lia. destruct e; [lia|]. done.
  - assert (e = t) as -> by lia. rewrite decide_False by lia. rewrite Nat.mod_same by lia. done.
Qed.

(** C17 (when).  For every epoch >= 1 and every threshold, update_lr leaves the rate alone before the
    threshold epoch and applies the selected schedule at every later epoch. *)
Theorem C17_applies_from_threshold_on :
  forall (lr mn mx init decay : R) (epoch thr : nat) (flag : lr_flag), (0 < epoch)%nat -> (0 < thr)%nat ->
    ((epoch < thr)%nat -> update_lr lr mn mx init decay epoch thr flag = Some lr) /\
    ((thr <= epoch)%nat -> update_lr lr mn mx init decay epoch thr flag =
      match flag with
      | LR_CONSTANT_DECAY => Some (if decide (lr <= mn) then lr else lr - decay)
      | LR_TIME_BASED_DECAY => Some (if decide (lr <= mn) then lr else lr / (1 + decay * INR epoch))
      | LR_STEP_DECAY => Some (init * decay ^ ((1 + epoch) / thr)%nat)
      | LR_NO_DECAY | LR_ANNEALING_DECAY => Some lr
      end).
Proof.
  intros lr mn mx init decay epoch thr flag He Ht. unfold update_lr. rewrite early_spec by done. split; intros H.
  - assert (epoch <? thr = true)%nat as -> by by apply Nat.ltb_lt. by destruct flag.
  - assert (epoch <? thr = false)%nat as -> by by apply Nat.ltb_ge. destruct flag; cbn; try done.
    + unfold time_based_decay. f_equal. destruct (decide _); [done|]. unfold Rdiv. by rewrite Rmult_1_l.
    + unfold step_decay. by rewrite decide_False by lia.
Qed.

(** C17 (what holds about the minimum).  For a non-negative decay: constant decay never goes below
    minimum - decay and stops for good once at or below the minimum; time-based decay keeps a positive
    rate positive and never increases it. *)
Theorem C17_constant_decay_bound_partial :
  forall (mn mx init decay : R) (thr count first : nat) (lr : R), 0 <= decay -> (0 < thr)%nat -> (0 < first)%nat ->
    mn - decay <= lr -> exists lr', train_lr lr mn mx init decay first count thr LR_CONSTANT_DECAY = Some lr' /\ mn - decay <= lr' <= lr.
Proof.
  intros mn mx init decay thr count. induction count as [|count IH]; intros first lr Hd Ht Hf Hlr; cbn [train_lr].
  - exists lr. split; [done|lra].
  - assert (Hu : exists l, update_lr lr mn mx init decay first thr LR_CONSTANT_DECAY = Some l /\ mn - decay <= l <= lr).
    { destruct (C17_applies_from_threshold_on lr mn mx init decay first thr LR_CONSTANT_DECAY Hf Ht) as [H1 H2].
      destruct (decide (first < thr)%nat).
      - rewrite H1 by done. eexists. split; [done|lra].
      - rewrite H2 by lia. eexists. split; [done|]. destruct (decide _); lra. }
    destruct Hu as (l & -> & Hl). cbn [mbind option_bind]. destruct (IH (S first) l) as (l' & E & Hl'); [done|done|lia|lra|].
    exists l'. split; [done|lra].
Qed.

Theorem C17_time_based_partial :
  forall (mn mx init decay : R) (thr count first : nat) (lr : R), 0 <= decay -> (0 < thr)%nat -> (0 < first)%nat ->
    0 < lr -> exists lr', train_lr lr mn mx init decay first count thr LR_TIME_BASED_DECAY = Some lr' /\ 0 < lr' <= lr.
Proof.
  intros mn mx init decay thr count. induction count as [|count IH]; intros first lr Hd Ht Hf Hlr; cbn [train_lr].
  - exists lr. split; [done|lra].
  - assert (Hu : exists l, update_lr lr mn mx init decay first thr LR_TIME_BASED_DECAY = Some l /\ 0 < l <= lr).
    { destruct (C17_applies_from_threshold_on lr mn mx init decay first thr LR_TIME_BASED_DECAY Hf Ht) as [H1 H2].
      destruct (decide (first < thr)%nat).
      - rewrite H1 by done. eexists. split; [done|lra].
      - rewrite H2 by lia. eexists. split; [done|]. destruct (decide _); [lra|].
        assert (0 <= INR first) by apply pos_INR. assert (1 <= 1 + decay * INR first) by nra.
        split; [apply Rdiv_lt_0_compat; lra|]. apply (Rmult_le_reg_r (1 + decay * INR first)); [lra|].
        unfold Rdiv. rewrite Rmult_assoc, Rinv_l by lra. nra. }
    destruct Hu as (l & -> & Hl). cbn [mbind option_bind]. destruct (IH (S first) l) as (l' & E & Hl'); [done|done|lia|lra|].
    exists l'. split; [done|lra].
Qed.

(** C17 refuted: each schedule takes the rate below the minimum ... *)
Theorem C17_minimum_refuted :
  (exists lr mn decay, mn <= lr /\ 0 < decay /\ exists l, update_lr lr mn 1 1 decay 1 1 LR_CONSTANT_DECAY = Some l /\ l < mn) /\
  (exists lr mn decay, mn <= lr /\ 0 < decay /\ exists l, update_lr lr mn 1 1 decay 1 1 LR_TIME_BASED_DECAY = Some l /\ l < mn) /\
  (exists lr mn decay, mn <= lr /\ 0 < decay < 1 /\ exists l, update_lr lr mn 1 1 decay 1 1 LR_STEP_DECAY = Some l /\ l < mn).
Proof.
  split_and!.
  - exists 2, 1, 2. split; [lra|]. split; [lra|]. eexists. rewrite (proj2 (C17_applies_from_threshold_on _ _ _ _ _ 1 1 _ ltac:(lia) ltac:(lia))) by lia. split; [reflexivity|].
    rewrite decide_False by lra. lra.
  - exists 2, 1, 2. split; [lra|]. split; [lra|]. eexists. rewrite (proj2 (C17_applies_from_threshold_on _ _ _ _ _ 1 1 _ ltac:(lia) ltac:(lia))) by lia. split; [reflexivity|].
    rewrite decide_False by lra. cbn. lra.
  - exists 1, (1/2), (1/4). split; [lra|]. split; [lra|]. eexists. rewrite (proj2 (C17_applies_from_threshold_on _ _ _ _ _ 1 1 _ ltac:(lia) ltac:(lia))) by lia. split; [reflexivity|].
    cbn. lra.
Qed.

(** ... epoch 0 divides by zero, the annealing flag does nothing, and the constant decay is applied at
    epochs that are not multiples of the threshold. *)
Theorem C17_schedule_refuted :
  (forall lr mn mx init decay thr, update_lr lr mn mx init decay 0 thr LR_CONSTANT_DECAY = None) /\
  (forall lr mn mx init decay epoch thr, (0 < epoch)%nat -> update_lr lr mn mx init decay epoch thr LR_ANNEALING_DECAY = Some lr) /\
  update_lr 1 0 1 1 (1/2) 3 2 LR_CONSTANT_DECAY <> Some 1.
Proof.
  split_and!.
  - intros. unfold update_lr, lr_returns_early. done.
  - intros. unfold update_lr. rewrite early_spec by done. cbn [mbind option_bind]. by destruct (epoch <? thr)%nat.
  - rewrite (proj2 (C17_applies_from_threshold_on _ _ _ _ _ 3 2 _ ltac:(lia) ltac:(lia))) by lia.
    rewrite decide_False by lra. intros H. injection H as H. lra.
Qed.

(** cosine_annealing (callable on its own): the result lies in [min, min + 2(max-min)], and before
    the threshold epoch it is above the maximum. *)
Theorem C17_cosine_range : forall mn mx epoch thr, mn <= mx -> (0 < thr)%nat ->
  exists l, cosine_annealing mn mx epoch thr = Some l /\ mn <= l <= mn + 2 * (mx - mn).
Proof.
  intros mn mx epoch thr H Ht. unfold cosine_annealing. rewrite decide_False by lia. eexists. split; [done|].
  pose proof (COS_bound (1 + PI * INR (epoch / thr)%nat)). nra.
Qed.
Theorem C17_cosine_maximum_refuted : forall mn mx epoch thr, mn < mx -> (epoch < thr)%nat ->
  exists l, cosine_annealing mn mx epoch thr = Some l /\ mx < l.
Proof.
  intros mn mx epoch thr H Ht. unfold cosine_annealing. rewrite decide_False by lia. eexists. split; [done|].
  rewrite Nat.div_small by done. cbn [INR]. rewrite Rmult_0_r, Rplus_0_r.
  assert (0 < cos 1). { apply cos_gt_0; pose proof PI2_1; lra. } nra.
Qed.

Example C17_example : train_lr 1 (1/10) 1 1 (1/4) 1 3 2 LR_CONSTANT_DECAY = Some (1/2).
Proof.
  cbn [train_lr]. rewrite (proj1 (C17_applies_from_threshold_on _ _ _ _ _ 1 2 _ ltac:(lia) ltac:(lia))) by lia. cbn [mbind option_bind].
  rewrite (proj2 (C17_applies_from_threshold_on _ _ _ _ _ 2 2 _ ltac:(lia) ltac:(lia))) by lia. cbn [mbind option_bind].
  rewrite (decide_False (P := 1 <= 1/10)) by lra.
  rewrite (proj2 (C17_applies_from_threshold_on _ _ _ _ _ 3 2 _ ltac:(lia) ltac:(lia))) by lia. cbn [mbind option_bind].
  rewrite decide_False by lra. f_equal. lra.
Qed.
Print Assumptions C17_cosine_maximum_refuted.
