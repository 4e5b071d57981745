(** C14: the exploration probability. *)
From Verif Require Import RealSum Explore_Model.
Open Scope R_scope.

Lemma step_range M m d e : accepted M m d e -> m <= update_exploration M m d e <= M.
Proof. intros (?&?&?&?&?). unfold update_exploration. repeat destruct (decide _); lra. Qed.

Lemma exp_neg_le_1 d : 0 <= d -> 0 < exp (- d) <= 1.
Proof.
  intros H. split; [apply exp_pos|]. destruct (decide (d = 0)) as [->|].
  - rewrite Ropp_0, exp_0. lra.
  - left. rewrite <- exp_0. apply exp_increasing. lra.
Qed.

Lemma accepted_after M m d e k : accepted M m d e -> accepted M m d (epsilon_after M m d e k).
Proof.
  intros H. induction k as [|k IH]; [done|]. pose proof (step_range M m d _ IH). destruct H as (?&?&?&?&?).
  repeat split; try done; cbn; try lra.
Qed.

(** For all accepted parameters and all numbers of calls k >= 1 the probability is in [min,max]. *)
Theorem C14_range : forall (max_eps min_eps decay eps : R) (k : nat),
  accepted max_eps min_eps decay eps -> (1 <= k)%nat ->
  min_eps <= epsilon_after max_eps min_eps decay eps k <= max_eps.
Proof. intros M m d e k H Hk. destruct k as [|k]; [lia|]. cbn. apply step_range. by apply accepted_after. Qed.

(** From the first call on (and from the start if the initial value is in range) it never increases. *)
Theorem C14_non_increasing : forall (max_eps min_eps decay eps : R) (k : nat),
  accepted max_eps min_eps decay eps -> (1 <= k)%nat \/ min_eps <= eps ->
  epsilon_after max_eps min_eps decay eps (S k) <= epsilon_after max_eps min_eps decay eps k.
Proof.
  intros M m d e k H Hk. set (x := epsilon_after M m d e k).
  assert (Hx : m <= x).
  { destruct Hk as [Hk|Hk]; [apply C14_range; done|]. destruct k as [|k]; [done|]. apply C14_range; [done|lia]. }
  cbn. fold x. destruct H as (?&?&?&?&?). pose proof (exp_neg_le_1 d ltac:(lra)).
  assert (x * exp (- d) <= x) by nra.
  unfold update_exploration. repeat destruct (decide _); lra.
Qed.

(** With a positive decay it reaches the minimum after finitely many calls and stays there. *)
Theorem C14_reaches_minimum : forall (max_eps min_eps decay eps : R),
  accepted max_eps min_eps decay eps -> 0 < decay ->
  exists N, forall k, (N <= k)%nat -> epsilon_after max_eps min_eps decay eps k = min_eps.
Proof.
  intros M m d e H Hd. pose proof H as (?&?&?&?&?).
  assert (Hexp : 0 < exp (- d) < 1). { split; [apply exp_pos|]. rewrite <- exp_0. apply exp_increasing. lra. }
  set (q := exp (- d)) in *.
  (* values are bounded by max m (q^k) *)
  assert (Hb : forall k, epsilon_after M m d e k <= Rmax m (q ^ k)).
  { induction k as [|k IH].
    - cbn. apply Rle_trans with 1; [lra|apply Rmax_r].
    - cbn [epsilon_after]. set (x := epsilon_after M m d e k) in *.
      assert (x * q <= Rmax m (q ^ S k)).
      { cbn. assert (0 <= q ^ k) by (apply pow_le; lra). unfold Rmax in *. destruct (Rle_dec m (q ^ k)), (Rle_dec m (q * q ^ k)); nra. }
      unfold update_exploration. fold q. pose proof (Rmax_l m (q ^ S k)). repeat destruct (decide _); lra. }
  destruct (pow_lt_1_zero q ltac:(rewrite Rabs_pos_eq; lra) m ltac:(lra)) as [N HN].
  exists (N + 1)%nat. intros k Hk. apply Rle_antisym.
  - eapply Rle_trans; [apply Hb|]. apply Rmax_lub; [lra|]. specialize (HN k ltac:(lia)). rewrite Rabs_pos_eq in HN by (apply pow_le; lra). lra.
  - apply (C14_range M m d e k H). lia.
Qed.

(** The initial value itself is not checked against the range: it may lie below the minimum, and then
    the first call increases it. *)
Theorem C14_initial_value_refuted : exists max_eps min_eps decay eps,
  accepted max_eps min_eps decay eps /\ ~ (min_eps <= epsilon_after max_eps min_eps decay eps 0) /\
  epsilon_after max_eps min_eps decay eps 1 > epsilon_after max_eps min_eps decay eps 0.
Proof.
  exists 1, (1/2), 0, 0. split; [repeat split; lra|]. split; [cbn; lra|]. cbn. unfold update_exploration.
  rewrite Rmult_0_l. repeat destruct (decide _); lra.
Qed.

Example C14_example : accepted 1 (1/10) 1 1 /\ epsilon_after 1 (1/10) 1 1 1 = exp (-1).
Proof.
  split; [repeat split; lra|]. cbn. unfold update_exploration. rewrite Rmult_1_l. replace (Ropp 1) with (-1) by lra.
  assert (exp (-1) < 1). { rewrite <- exp_0. apply exp_increasing. lra. }
  assert (1/10 < exp (-1)).
  { pose proof exp_le_3 as H3. replace (-1) with (Ropp 1) by lra. rewrite exp_Ropp. apply Rlt_le_trans with (/ 3); [lra|]. apply Rinv_le_contravar; [apply exp_pos|lra]. }
  repeat destruct (decide _); lra.
Qed.
Print Assumptions C14_reaches_minimum.
