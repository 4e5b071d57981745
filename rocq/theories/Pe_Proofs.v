From Verif Require Import NumLib BaseLemmas Pe_Model Pe_Spec.
From Coq Require Import Reals Lia Lra.
Open Scope nat_scope.

Lemma el_set l i v k : i < length l -> el (<[i := v]> l) k = if decide (k = i) then v else el l k.
Proof.
  intros Hi. unfold el. rewrite !nth_lookup. destruct (decide (k = i)) as [->|Hk].
  - by rewrite list_lookup_insert.
  - by rewrite list_lookup_insert_ne.
Qed.

(** what number k of position i is *)
Definition code_number (d i k : nat) : R := if Nat.even k then sin (angle d i k) else cos (angle d i k).

Lemma fill_row_ok d i p : Nat.even d = true -> (i + 1) * d <= length p ->
  ∃ p', fill_row d i p = Some p' /\ length p' = length p /\
    ∀ x, el p' x = if decide (i * d <= x < i * d + d) then code_number d i (x - i * d) else el p x.
Proof.
  intros Hd Hl. apply Nat.even_spec in Hd as [h Hd]. assert (Eh : d / 2 = h) by (rewrite Hd, Nat.mul_comm; apply Nat.div_mul; lia).
  unfold fill_row. rewrite Eh.
  destruct (for_loop_inv (λ m q, length q = length p /\ ∀ x, el q x = if decide (i * d <= x < i * d + 2 * m) then code_number d i (x - i * d) else el p x)
    (λ m p, let j := 2 * m in p ← wr p (i * d + j) (sin (angle d i j)); wr p (i * d + j + 1) (cos (angle d i (j + 1)))) h 0 p) as (p' & E & L & H).
  - split; [done|]. intros x. by rewrite decide_False by lia.
  - intros m q Hm (Lq & Hq). cbv zeta. rewrite wr_Some by nia. cbn [mbind option_bind]. rewrite wr_Some by (rewrite insert_length; nia).
    eexists. split; [done|]. split; [by rewrite !insert_length|]. intros x. rewrite el_set by (rewrite insert_length; nia). rewrite el_set by nia. rewrite Hq.
    destruct (decide (x = i * d + 2 * m + 1)) as [->|H1].
    { rewrite decide_True by lia. unfold code_number. replace (i * d + 2 * m + 1 - i * d) with (2 * m + 1) by lia.
      rewrite Nat.even_add, Nat.even_mul. done. }
    destruct (decide (x = i * d + 2 * m)) as [->|H2].
    { rewrite decide_True by lia. unfold code_number. replace (i * d + 2 * m - i * d) with (2 * m) by lia. rewrite Nat.even_mul. done. }
    destruct (decide (i * d <= x < i * d + 2 * m)), (decide (i * d <= x < i * d + 2 * S m)); done || lia.
  - exists p'. split; [exact E|]. split; [done|]. intros x. rewrite H. rewrite Nat.add_0_l.
    destruct (decide (i * d <= x < i * d + 2 * h)), (decide (i * d <= x < i * d + d)); done || lia.
Qed.

Lemma encoding_ok d len : Nat.even d = true ->
  ∃ p, positional_encoding d len = Some p /\ length p = len * d /\ ∀ i k, i < len -> k < d -> el p (i * d + k) = code_number d i k.
Proof.
  intros Hd. unfold positional_encoding.
  assert (Hm : d mod 2 = 0). { apply Nat.even_spec in Hd as [h ->]. rewrite Nat.mul_comm. by apply Nat.mod_mul. }
  rewrite decide_False by lia.
  destruct (for_loop_inv (λ n p, length p = len * d /\ ∀ i k, i < n -> k < d -> el p (i * d + k) = code_number d i k) (fill_row d) len 0 (replicate (len * d) 0%R)) as (p & E & L & H).
  - split; [apply replicate_length|]. intros; lia.
  - intros n p Hn (Lp & Hp). destruct (fill_row_ok d n p Hd) as (p' & E & L & H); [rewrite Lp; nia|].
    exists p'. split; [done|]. split; [lia|]. intros i k Hi Hk. rewrite H. destruct (decide (i = n)) as [->|].
    + rewrite decide_True by lia. f_equal. lia.
    + rewrite decide_False by nia. apply Hp; lia.
  - exists p. split; [done|]. split; [done|]. rewrite Nat.add_0_l in H. exact H.
Qed.

Local Open Scope R_scope.
Lemma angle_eq d i j : (0 < d)%nat -> angle d i j = INR i * INR d / 10000 ^ (2 * j).
Proof.
  intros Hd. unfold angle. assert (INR d <> 0) by (apply not_0_INR; lia). assert (10000 ^ (2 * j) <> 0) by (apply pow_nonzero; lra). field. done.
Qed.
Lemma sin_lipschitz a b : Rabs (sin a - sin b) <= Rabs (a - b).
Proof.
  assert (H : ∀ a b, a < b -> Rabs (sin b - sin a) <= Rabs (b - a)).
  { clear. intros a b Hab. destruct (MVT_cor2 sin cos a b Hab) as (c & E & _). { intros; apply derivable_pt_lim_sin. }
    rewrite E, Rabs_mult. pose proof (COS_bound c). assert (Rabs (cos c) <= 1) by (apply Rabs_le; lra). pose proof (Rabs_pos (b - a)). nra. }
  destruct (Rtotal_order a b) as [Hab|[->|Hab]].
  - rewrite (Rabs_minus_sym (sin a)), (Rabs_minus_sym a). by apply H.
  - rewrite !Rminus_diag_eq by done. lra.
  - by apply H.
Qed.
Lemma cos_lipschitz a b : Rabs (cos a - cos b) <= Rabs (a - b).
Proof. rewrite !cos_sin. replace (a - b) with (PI / 2 + a - (PI / 2 + b)) by lra. apply sin_lipschitz. Qed.

Lemma sin_half x : 0 < x <= 1 -> x / 2 <= sin x.
Proof.
  intros Hx. destruct (MVT_cor2 sin cos 0 x) as (c & E & Hc); [lra|intros; apply derivable_pt_lim_sin|].
  rewrite sin_0, !Rminus_0_r in E. rewrite E. pose proof PI2_3_2. pose proof PI_RGT_0.
  assert (1 / 2 <= cos c). { rewrite <- cos_PI3. left. apply cos_decreasing_1; lra. }
  nra.
Qed.

Lemma Rdiv_le_0_compat x y : (0 <= x -> 0 < y -> 0 <= x / y)%R.
Proof. intros Hx Hy. unfold Rdiv. apply Rmult_le_pos; [done|]. left. by apply Rinv_0_lt_compat. Qed.
