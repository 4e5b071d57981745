(** C73: the positional encoding; C74: initial values of parameters *)
From Verif Require Import NumLib Pe_Model Pe_Spec Pe_Proofs.
From Coq Require Import Reals Lia Lra.
Open Scope nat_scope.

(** ** C73 *)
(** For an even dimension the result is one vector per position, each number between -1 and 1; sines and cosines alternate. *)
Theorem encoding_layout d len : Nat.even d = true ->
  ∃ p, positional_encoding d len = Some p /\ length p = len * d /\
    (∀ i k, i < len -> k < d -> (-1 <= number d p i k <= 1)%R) /\
    (∀ i k, i < len -> k < d ->
       number d p i k = (if Nat.even k then sin (INR i * INR d / 10000 ^ (2 * k)) else cos (INR i * INR d / 10000 ^ (2 * k)))%R).
Proof.
  intros Hd. destruct (encoding_ok d len Hd) as (p & E & L & H). exists p. split; [done|]. split; [done|]. unfold number. split; intros i k Hi Hk; rewrite H by done; unfold code_number.
  - destruct (Nat.even k); [pose proof (SIN_bound (angle d i k))|pose proof (COS_bound (angle d i k))]; lra.
  - rewrite angle_eq by lia. done.
Qed.
(** For an odd dimension the program ends. *)
Theorem encoding_odd d len : Nat.even d = false -> positional_encoding d len = None.
Proof.
  intros Hd. unfold positional_encoding. rewrite decide_True; [done|]. intros Hm.
  apply Nat.mod_divides in Hm as [c ->]; [|lia]. by rewrite Nat.even_mul in Hd.
Qed.

(** The documented encoding is another one: in every dimension up to 10^8, every number 2, 4, ... of position 1 is less than
    a thousandth of the documented one. *)
Theorem encoding_documented_refuted d len k : Nat.even d = true -> (INR d <= 10 ^ 8)%R -> 2 <= len -> 2 <= k < d -> Nat.even k = true ->
  ∃ p, positional_encoding d len = Some p /\ (number d p 1 k < / 1000 * documented d 1 k)%R.
Proof.
  intros Hd Hd10 Hlen Hk He. destruct (encoding_ok d len Hd) as (p & E & L & H). exists p. split; [done|]. unfold number. rewrite H by lia. unfold code_number, documented. rewrite He.
  rewrite angle_eq by lia. cbn [INR]. rewrite !Rmult_1_l.
  assert (Hk2 : 2 * (k / 2) = k). { apply Nat.even_spec in He as [h ->]. rewrite (Nat.mul_comm 2 h), Nat.div_mul by lia. lia. }
  assert (Hd0 : (0 < INR d)%R) by (apply lt_0_INR; lia).
  assert (Hf : (/ 10000 <= frequency d (k / 2) <= 1)%R).
  { unfold frequency. rewrite Hk2. assert (Hq : (0 <= INR k / INR d <= 1)%R).
    { split; [apply Rdiv_le_0_compat; [apply pos_INR|done]|]. apply (Rmult_le_reg_r (INR d)); [done|]. unfold Rdiv. rewrite Rmult_assoc, Rinv_l by lra. rewrite Rmult_1_r, Rmult_1_l. apply le_INR. lia. }
    assert (H1 : (Rpower 10000 (INR k / INR d) <= 10000)%R). { rewrite <- (Rpower_1 10000) at 2 by lra. apply Rle_Rpower; lra. }
    assert (H2 : (1 <= Rpower 10000 (INR k / INR d))%R). { rewrite <- (Rpower_O 10000) by lra. apply Rle_Rpower; lra. }
    split; [apply Rinv_le_contravar; lra|]. rewrite <- Rinv_1. apply Rinv_le_contravar; lra. }
  pose proof (sin_half (frequency d (k / 2)) ltac:(lra)) as Hs.
  assert (Ha : (0 <= INR d / 10000 ^ (2 * k) <= / 10 ^ 8)%R).
  { assert (Hp : (10000 ^ 4 <= 10000 ^ (2 * k))%R) by (apply Rle_pow; [lra|lia]). split.
    - apply Rdiv_le_0_compat; [lra|]. apply pow_lt. lra.
    - apply (Rmult_le_reg_r (10000 ^ (2 * k))%R); [apply pow_lt; lra|]. unfold Rdiv. rewrite Rmult_assoc, Rinv_l by (apply pow_nonzero; lra). rewrite Rmult_1_r.
      assert ((/ 10 ^ 8 * 10000 ^ 4 <= / 10 ^ 8 * 10000 ^ (2 * k))%R) by (apply Rmult_le_compat_l; [|done]; left; apply Rinv_0_lt_compat, pow_lt; lra).
      assert ((/ 10 ^ 8 * 10000 ^ 4)%R = 10 ^ 8)%R by field. lra. }
  assert (Hsin : (sin (INR d / 10000 ^ (2 * k)) <= / 10 ^ 8)%R).
  { pose proof (sin_lipschitz (INR d / 10000 ^ (2 * k)) 0) as Hl. rewrite sin_0, !Rminus_0_r in Hl. rewrite (Rabs_pos_eq (INR d / _)) in Hl by lra.
    pose proof (Rle_abs (sin (INR d / 10000 ^ (2 * k)))). lra. }
  apply (Rle_lt_trans _ (/ 10 ^ 8)); [done|]. apply (Rlt_le_trans _ (/ 1000 * (/ 10000 / 2))); [|lra]. lra.
Qed.
(** The vectors hardly tell positions apart: all numbers but the first differ between two positions by at most the distance of
    the positions times d / 10^8. *)
Theorem encoding_positions_alike_refuted d len i i' k : Nat.even d = true -> i < len -> i' < len -> 1 <= k < d ->
  ∃ p, positional_encoding d len = Some p /\ (Rabs (number d p i k - number d p i' k) <= Rabs (INR i - INR i') * (INR d / 10 ^ 8))%R.
Proof.
  intros Hd Hi Hi' Hk. destruct (encoding_ok d len Hd) as (p & E & L & H). exists p. split; [done|]. unfold number. rewrite !H by lia. unfold code_number.
  assert (Hd0 : (0 < INR d)%R) by (apply lt_0_INR; lia).
  assert (Ha : (Rabs (angle d i k - angle d i' k) <= Rabs (INR i - INR i') * (INR d / 10 ^ 8))%R).
  { rewrite !angle_eq by lia. replace (INR i * INR d / 10000 ^ (2 * k) - INR i' * INR d / 10000 ^ (2 * k))%R with ((INR i - INR i') * (INR d / 10000 ^ (2 * k)))%R by (unfold Rdiv; ring).
    rewrite Rabs_mult. apply Rmult_le_compat_l; [apply Rabs_pos|].
    assert (Hp : (10000 ^ 2 <= 10000 ^ (2 * k))%R) by (apply Rle_pow; [lra|lia]).
    assert (0 < 10000 ^ (2 * k))%R by (apply pow_lt; lra).
    rewrite Rabs_pos_eq by (apply Rdiv_le_0_compat; lra). apply Rmult_le_compat_l; [lra|]. replace (10 ^ 8)%R with (10000 ^ 2)%R by ring. apply Rinv_le_contravar; [lra|done]. }
  eapply Rle_trans; [|exact Ha]. destruct (Nat.even k); [apply sin_lipschitz|apply cos_lipschitz].
Qed.
(** In the documented encoding the product of the vectors of two positions depends on their distance only; *)
Theorem documented_product d i i' t : Nat.even d = true -> product d (documented d) (i + t) (i' + t) = product d (documented d) i i'.
Proof.
  intros Hd. apply Nat.even_spec in Hd as [h ->].
  assert (Hg : ∀ D n a b, sumn (2 * n) (λ k, documented D a k * documented D b k)%R = sumn n (λ m, cos ((INR a - INR b) * frequency D m))%R).
  { intros D n a b. induction n as [|n IH]; [done|]. replace (2 * S n) with (S (S (2 * n))) by lia. cbn [sumn]. rewrite IH.
    rewrite Rplus_assoc. f_equal. unfold documented. change (S (2 * n)) with (1 + 2 * n). rewrite (Nat.even_add 1), Nat.even_mul. cbn [Nat.even orb eqb Bool.eqb].
    rewrite (Nat.mul_comm 2 n). rewrite Nat.div_mul by lia. rewrite Nat.div_add by lia. cbn [Nat.div Nat.add]. change (1 / 2) with 0. rewrite Nat.add_0_l.
    rewrite Rmult_minus_distr_r, cos_minus. lra. }
  unfold product. rewrite !Hg. apply sumn_ext. intros m _. f_equal. rewrite !plus_INR. lra.
Qed.
(** in the one computed it does not. *)
Theorem encoding_product_refuted : ∃ p, positional_encoding 2 3 = Some p /\ product 2 (number 2 p) 0 1 <> product 2 (number 2 p) 1 2.
Proof.
  destruct (encoding_ok 2 3 eq_refl) as (p & E & L & H). exists p. split; [done|]. unfold product, number. cbn [sumn]. rewrite !H by lia. unfold code_number. cbn [Nat.even].
  rewrite !angle_eq by lia. cbn [INR].
  replace (0 * (1 + 1) / 10000 ^ (2 * 0))%R with 0%R by (cbn; lra). replace (0 * (1 + 1) / 10000 ^ (2 * 1))%R with 0%R by (cbn; lra).
  replace (1 * (1 + 1) / 10000 ^ (2 * 0))%R with 2%R by (cbn; lra). replace ((1 + 1) * (1 + 1) / 10000 ^ (2 * 0))%R with 4%R by (cbn; lra).
  set (a := (1 * (1 + 1) / 10000 ^ (2 * 1))%R). set (b := ((1 + 1) * (1 + 1) / 10000 ^ (2 * 1))%R).
  assert (Ha : (0 < a < 1)%R) by (unfold a; cbn; lra). rewrite sin_0, cos_0. pose proof PI2_3_2. pose proof PI_4. 
  assert (H2 : (0 < sin 2)%R) by (apply sin_gt_0; lra). assert (H4 : (sin 4 <= 0)%R) by (apply sin_le_0; lra).
  assert (Hs4 : (sin 4 <> 0)%R).
  { intros Hz. assert (Hc : (sin (4 - PI) = 0)%R) by (rewrite sin_minus, sin_PI, Hz; lra). assert (0 < 4 - PI)%R.
    { destruct (Req_dec PI 4) as [Hp|]; [|lra]. exfalso. assert (PI / 4 = 1)%R as Hq1 by lra.
      pose proof (sin_half 1 ltac:(lra)) as Hh. pose proof (cos_PI4) as Hc4. rewrite Hq1 in Hc4.
      pose proof (MVT_cor2 sin cos 0 1 ltac:(lra) ltac:(intros; apply derivable_pt_lim_sin)) as (c & Ec & Hcc).
      rewrite sin_0 in Ec. pose proof sin_PI4 as Hs. rewrite Hq1 in Hs. assert (cos 1 < cos c)%R by (apply cos_decreasing_1; lra).
      rewrite Hc4 in *. rewrite Hs in Ec.
      lra. }
    pose proof (sin_gt_0 (4 - PI) ltac:(lra) ltac:(lra)). lra. }
  pose proof (COS_bound b) as Hb. assert (0 < cos a)%R by (apply cos_gt_0; lra).
  assert (sin 2 * sin 4 < 0)%R by nra. nra.
Qed.
Example documented_instance : product 2 (documented 2) (0 + 1) (1 + 1) = product 2 (documented 2) 0 1.
Proof. by apply (documented_product 2 0 1 1). Qed.
Example encoding_instance : ∃ p, positional_encoding 4 3 = Some p /\ (number 4 p 1 2 < / 1000 * documented 4 1 2)%R.
Proof. apply encoding_documented_refuted; try done; try lia. cbn. lra. Qed.

(** ** C74 *)
Open Scope R_scope.
(** rand() is between 0 and RAND_MAX = M *)
Definition rand_value (M r : Z) : Prop := (0 < M)%Z /\ (0 <= r <= M)%Z.

Lemma rand_R M r : rand_value M r -> 0 < IZR M /\ 0 <= IZR r <= IZR M.
Proof. intros [H [H1 H2]]. split; [by apply IZR_lt|]. split; by apply IZR_le. Qed.

Theorem uniform_range M r : rand_value M r -> 0 <= r2 M r <= 1 /\ (r2 M r = 0 <-> r = 0%Z) /\ (r2 M r = 1 <-> r = M).
Proof.
  intros Hr. destruct (rand_R M r Hr) as [HM H]. unfold r2. split; [|split].
  - split; [apply Rdiv_le_0_compat; lra|]. apply (Rmult_le_reg_r (IZR M)); [done|]. unfold Rdiv. rewrite Rmult_assoc, Rinv_l by lra. lra.
  - split; [|intros ->; unfold Rdiv; lra]. intros E. apply eq_IZR. apply (Rmult_eq_reg_r (/ IZR M)); [unfold Rdiv in E; lra|]. apply Rinv_neq_0_compat. lra.
  - split; [|intros ->; field; lra]. intros E. apply eq_IZR. apply (Rmult_eq_reg_r (/ IZR M)); [|apply Rinv_neq_0_compat; lra]. unfold Rdiv in E. rewrite E. field. lra.
Qed.
(** signed_r2(n) is between -n and n; and when RAND_MAX is odd (as 2^31 - 1 is), positive and negative values are equally likely: exchanging
    rand() for RAND_MAX - rand() in the test of the sign changes the sign and nothing else. *)
Theorem signed_range M ra rb n : rand_value M ra -> rand_value M rb -> 0 <= n -> - n <= signed_r2 M ra rb n <= n.
Proof.
  intros Ha Hb Hn. destruct (uniform_range M rb Hb) as [H _]. unfold signed_r2. destruct (decide _); nra.
Qed.
Theorem signed_symmetric M ra rb n : rand_value M ra -> Z.odd M = true -> signed_r2 M (M - ra) rb n = - signed_r2 M ra rb n.
Proof.
  intros Ha Ho. destruct (rand_R M ra Ha) as [HM H]. unfold signed_r2.
  assert (Hd : ∀ r, / 2 <= r2 M r <-> (M <= 2 * r)%Z).
  { intros r. unfold r2. assert (E : IZR r / IZR M * IZR M = IZR r) by (field; lra). split; intros Hr.
    - apply le_IZR. rewrite mult_IZR. nra.
    - apply IZR_le in Hr. rewrite mult_IZR in Hr. nra. }
  assert (Hne : M <> (2 * ra)%Z). { intros E. rewrite E, Z.odd_mul in Ho. done. }
  destruct (decide (/ 2 <= r2 M (M - ra))) as [H1|H1], (decide (/ 2 <= r2 M ra)) as [H2|H2]; rewrite Hd in H1, H2; lia || lra.
Qed.
Theorem range_range M r lo hi : rand_value M r -> lo <= hi -> lo <= from_range M r lo hi <= hi /\ from_range M 0 lo hi = lo /\ (lo < hi -> from_range M M lo hi = hi).
Proof.
  intros Hr Hle. destruct (rand_R M r Hr) as [HM H]. destruct (uniform_range M r Hr) as [Hu _]. unfold r2 in Hu. unfold from_range.
  destruct (Req_dec lo hi) as [->|Hne].
  - assert (E : ∀ x, hi + x / (IZR M / (hi - hi)) = hi). { intros x. rewrite Rminus_diag_eq by done. unfold Rdiv. rewrite !Rinv_0, !Rmult_0_r. rewrite ?Rinv_0. lra. }
    rewrite !E. split; [lra|]. split; [done|]. lra.
  - assert (E : ∀ x, lo + x / (IZR M / (hi - lo)) = lo + x / IZR M * (hi - lo)). { intros x. field. split; lra. }
    rewrite !E. split; [nra|]. split; [unfold Rdiv; lra|]. intros _. replace (IZR M / IZR M) with 1 by (field; lra). lra.
Qed.
(** random_normal never takes the logarithm of a number outside (0, 1], and is at most sqrt(2 ln(RAND_MAX + 1)) in size; the gaussian initial values
    accordingly, and signed_kaiming_constant is between -sqrt(2/n) and sqrt(2/n). *)
Theorem drand_range M r : rand_value M r -> 0 < drand M r <= 1.
Proof.
  intros Hr. destruct (rand_R M r Hr) as [HM H]. unfold drand. split; [apply Rdiv_lt_0_compat; lra|].
  apply (Rmult_le_reg_r (IZR M + 1)); [lra|]. unfold Rdiv. rewrite Rmult_assoc, Rinv_l by lra. lra.
Qed.
Definition normal_bound (M : Z) : R := R_sqrt.sqrt (2 * ln (IZR M + 1)).
Theorem normal_range M ra rb : rand_value M ra -> 0 <= -2 * ln (drand M ra) /\ - normal_bound M <= normal M ra rb <= normal_bound M.
Proof.
  intros Ha. destruct (rand_R M ra Ha) as [HM H]. pose proof (drand_range M ra Ha) as Hd.
  assert (Hl : 0 <= -2 * ln (drand M ra)). { assert (ln (drand M ra) <= ln 1) by (destruct (proj2 Hd) as [Hlt|Heq]; [left; apply ln_increasing; lra|rewrite Heq; lra]). rewrite ln_1 in *. lra. }
  assert (Hb : R_sqrt.sqrt (-2 * ln (drand M ra)) <= normal_bound M).
  { apply sqrt_le_1_alt. assert (/ (IZR M + 1) <= drand M ra). { unfold drand, Rdiv. pose proof (Rinv_0_lt_compat (IZR M + 1) ltac:(lra)). nra. }
    assert (ln (/ (IZR M + 1)) <= ln (drand M ra)). { destruct H0 as [Hlt|Heq]; [left; apply ln_increasing; [apply Rinv_0_lt_compat; lra|done]|rewrite Heq; lra]. }
    rewrite ln_Rinv in H1 by lra. lra. }
  split; [done|]. unfold normal. pose proof (COS_bound (2 * PI * drand M rb)). pose proof (sqrt_pos (-2 * ln (drand M ra))). nra.
Qed.
Theorem initial_values_range n n1 n2 M ra rb : rand_value M ra -> rand_value M rb -> 0 < n -> 0 < n1 + n2 ->
  Rabs (xavier n M ra rb) <= R_sqrt.sqrt (1 / n) * normal_bound M /\
  Rabs (xavier2 n1 n2 M ra rb) <= R_sqrt.sqrt (2 / (n1 + n2)) * normal_bound M /\
  Rabs (kaiming n M ra rb) <= R_sqrt.sqrt (2 / n) * normal_bound M /\
  Rabs (signed_kaiming n M ra rb) <= R_sqrt.sqrt (2 / n).
Proof.
  intros Ha Hb Hn Hnn. destruct (normal_range M ra rb Ha) as [_ Hr].
  assert (Hg : ∀ s, Rabs (gaussian 0 (R_sqrt.sqrt s) M ra rb) <= R_sqrt.sqrt s * normal_bound M).
  { intros s. unfold gaussian. rewrite Rplus_0_l, Rabs_mult, (Rabs_pos_eq (R_sqrt.sqrt s)) by apply sqrt_pos. apply Rmult_le_compat_l; [apply sqrt_pos|]. by apply Rabs_le. }
  split; [apply Hg|]. split; [apply Hg|]. split; [apply Hg|]. apply Rabs_le. apply signed_range; [done|done|apply sqrt_pos].
Qed.
(** The bound is reached, on both sides (the smaller one for an odd RAND_MAX: then RAND_MAX + 1 is even). *)
Theorem normal_bound_reached M r : (0 < M)%Z -> (2 * (r + 1) = M + 1)%Z -> normal M 0 M = normal_bound M /\ normal M 0 r = - normal_bound M.
Proof.
  intros HM Hr. apply IZR_lt in HM. apply (f_equal IZR) in Hr. rewrite mult_IZR, !plus_IZR in Hr.
  assert (E0 : -2 * ln (drand M 0) = 2 * ln (IZR M + 1)). { unfold drand. replace ((0 + 1) / (IZR M + 1)) with (/ (IZR M + 1)) by (field; lra). rewrite ln_Rinv by lra. lra. }
  unfold normal, normal_bound. rewrite E0. split.
  - replace (drand M M) with 1 by (unfold drand; field; lra). rewrite Rmult_1_r, cos_2PI. lra.
  - replace (2 * PI * drand M r) with PI; [rewrite cos_PI; lra|]. unfold drand. assert (IZR r + 1 = (IZR M + 1) / 2) as -> by lra. field. lra.
Qed.
(** The sizes: the square of a value, times the number of inputs, is once (xavier) or twice (kaiming) the square of a normal value. *)
Theorem initial_values_scale n n1 n2 M ra rb : 0 < n -> 0 < n1 + n2 ->
  n * xavier n M ra rb ^ 2 = normal M ra rb ^ 2 /\
  (n1 + n2) * xavier2 n1 n2 M ra rb ^ 2 = 2 * normal M ra rb ^ 2 /\
  n * kaiming n M ra rb ^ 2 = 2 * normal M ra rb ^ 2 /\
  n * signed_kaiming n M ra rb ^ 2 = 2 * r2 M rb ^ 2.
Proof.
  intros Hn Hnn. unfold xavier, xavier2, kaiming, signed_kaiming, gaussian, signed_r2.
  assert (Hs : ∀ c m x, 0 < c -> 0 < m -> m * (R_sqrt.sqrt (c / m) * x) ^ 2 = c * x ^ 2).
  { intros c m x Hc Hm. replace ((R_sqrt.sqrt (c / m) * x) ^ 2) with (R_sqrt.sqrt (c / m) * R_sqrt.sqrt (c / m) * x ^ 2) by ring. rewrite sqrt_sqrt; [field; lra|]. apply Rdiv_le_0_compat; lra. }
  rewrite !Rplus_0_l, !Hs by lra. split; [lra|]. split; [done|]. split; [done|].
  destruct (decide _).
  - rewrite (Rmult_comm (r2 M rb)). apply Hs; lra.
  - replace (- r2 M rb * R_sqrt.sqrt (2 / n)) with (R_sqrt.sqrt (2 / n) * - r2 M rb) by ring. rewrite Hs by lra. ring.
Qed.
(** random_beta is between 0 and 1, except that it is not a number when rand() gives 0 twice. *)
Theorem beta_range alpha beta M ra rb : 0 < alpha -> 0 < beta -> rand_value M ra -> rand_value M rb ->
  (ra = 0%Z /\ rb = 0%Z -> random_beta alpha beta M ra rb = None) /\
  (~ (ra = 0%Z /\ rb = 0%Z) -> ∃ x, random_beta alpha beta M ra rb = Some x /\ 0 <= x <= 1).
Proof.
  intros Hal Hbe Ha Hb. assert (Hp : ∀ M r e, rand_value M r -> 0 <= powr (r2 M r) e /\ (powr (r2 M r) e = 0 <-> r = 0%Z)).
  { clear. intros M r e Hr. destruct (uniform_range M r Hr) as (H & H0 & _). unfold powr. destruct (decide (r2 M r = 0)) as [E|E]; [split; [lra|split; [intros _; by apply H0|done]]|].
    pose proof (exp_pos (e * ln (r2 M r))) as He. fold (Rpower (r2 M r) e) in He. split; [lra|]. split; [lra|]. intros Hz. by apply H0 in Hz. }
  unfold random_beta. destruct (Hp M ra (1 / alpha) Ha) as [Ha1 Ha2]. destruct (Hp M rb (1 / beta) Hb) as [Hb1 Hb2].
  set (x := powr (r2 M ra) _) in *. set (y := powr (r2 M rb) _) in *. split.
  - intros [Ea Eb]. apply Ha2 in Ea. apply Hb2 in Eb. by rewrite decide_True by lra.
  - intros Hn. assert (Hpos : x + y <> 0). { intros E. apply Hn. split; [apply Ha2|apply Hb2]; lra. } rewrite decide_False by done.
    eexists. split; [done|]. split; [apply Rdiv_le_0_compat; lra|]. apply (Rmult_le_reg_r (x + y)); [lra|]. unfold Rdiv. rewrite Rmult_assoc, Rinv_l by lra. lra.
Qed.
Example reached_instance : (2 * (1073741823 + 1) = 2147483647 + 1)%Z.
Proof. done. Qed.
Example rand_instance : rand_value 2147483647 1000 /\ Z.odd 2147483647 = true.
Proof. done. Qed.

Print Assumptions encoding_layout.
Print Assumptions encoding_odd.
Print Assumptions encoding_documented_refuted.
Print Assumptions encoding_positions_alike_refuted.
Print Assumptions documented_product.
Print Assumptions encoding_product_refuted.
Print Assumptions uniform_range.
Print Assumptions signed_range.
Print Assumptions signed_symmetric.
Print Assumptions range_range.
Print Assumptions drand_range.
Print Assumptions normal_range.
Print Assumptions initial_values_range.
Print Assumptions normal_bound_reached.
Print Assumptions initial_values_scale.
Print Assumptions beta_range.
