(** C23: each derivative_* of a loss is its derivative with respect to the prediction. *)
From Coquelicot Require Import Coquelicot.
From Verif Require Import NumLib Grad Loss_Model Softmax_Props.
Open Scope R_scope.

Theorem C23_mse : forall y_hat y, derivable_pt_lim (fun p => mse p y) y_hat (derivative_mse y_hat y).
Proof. intros. unfold mse, derivative_mse. dlim; [done|]. lra. Qed.

(** cross entropy: on 0 < p < 1 both functions are defined, and the second is the derivative of the first,
    which is -(y ln p + (1-y) ln (1-p)) *)
Theorem C23_cross_entropy : forall y_hat y, 0 < y_hat < 1 ->
  (forall p, 0 < p < 1 -> cross_entropy p y = Some (- (y * ln p + (1 - y) * ln (1 - p)))) /\
  exists d, derivative_cross_entropy y_hat y = Some d /\
    derivable_pt_lim (fun p => default 0 (cross_entropy p y)) y_hat d.
Proof.
  intros y_hat y Hp.
  assert (H1 : forall p, 0 < p < 1 -> cross_entropy p y = Some (- (y * ln p + (1 - y) * ln (1 - p)))).
  { intros p Hp'. unfold cross_entropy. rewrite (decide_False (P := p = 0)) by lra. rewrite (decide_False (P := p < 0)) by lra. cbn [mbind option_bind].
    rewrite (decide_True (P := p < 1)) by lra. cbn [mbind option_bind]. f_equal. lra. }
  split; [done|]. unfold derivative_cross_entropy. assert ((1 - y_hat) * y_hat <> 0) by (apply Rmult_integral_contrapositive; lra).
  rewrite decide_False by done. eexists. split; [done|].
  apply (dlim_between _ (fun p => - (y * ln p + (1 - y) * ln (1 - p))) _ _ 0 1); [lra| |].
  - intros z Hz. by rewrite H1.
  - dlim; [lra|]. field. lra.
Qed.

(** the degenerate prediction 1 (respectively 0) is a division by zero *)
Theorem C23_cross_entropy_saturated : forall y, derivative_cross_entropy 1 y = None /\ derivative_cross_entropy 0 y = None.
Proof. intros y. unfold derivative_cross_entropy. rewrite !decide_True by lra. done. Qed.

(** softmax followed by the reduced cross entropy: for a target distribution the derivative of the total loss
    with respect to the i-th logit is what the *_with_softmax function returns *)
Theorem C23_cross_entropy_with_softmax : forall n (logits target : list R) i,
  (i < n)%nat -> (n <= length logits)%nat -> sumn n (el target) = 1 ->
  has_partial (fun x => sumn n (fun k => cross_entropy_reduced_form (softmax_of everything n x k) (el target k)))
    logits i (derivative_cross_entropy_reduced_form_with_softmax (softmax_of everything n logits i) (el target i)).
Proof.
  intros n x y i Hi Hn Hy. unfold has_partial, derivative_cross_entropy_reduced_form_with_softmax.
  set (S := fun t => sumn n (fun k => exp (el (<[i := t]> x) k))).
  assert (HS : forall t, 0 < S t) by (intros t; apply sumn_pos; [lia|intros; apply exp_pos]).
  assert (Hd : derivable_pt_lim S (el x i) (exp (el x i))).
  { unfold S. eapply dlim_val; [|apply (dlim_sumn n (fun k t => exp (el (<[i := t]> x) k)) _ (fun k => if decide (k = i) then exp (el x i) else 0))].
    - by rewrite sumn_delta.
    - intros k Hk. eapply dlim_val; [|apply dlim_comp; [apply dlim_el; lia|apply derivable_pt_lim_exp]]. rewrite upd_self.
      destruct (decide (k = i)) as [->|]; lra. }
  apply (dlim_ext _ (fun t => sumn n (fun k => - el y k * (el (<[i := t]> x) k - ln (S t))))).
  { intros t. apply sumn_ext. intros k Hk. unfold cross_entropy_reduced_form, softmax_of. rewrite active_sum_everything. fold (S t).
    specialize (HS t). pose proof (exp_pos (el (<[i:=t]> x) k)). rewrite decide_False.
    - unfold Rdiv. rewrite ln_mult by (try apply Rinv_0_lt_compat; lra). rewrite ln_exp, ln_Rinv by lra. lra.
    - apply Rgt_not_eq. by apply Rdiv_lt_0_compat. }
  eapply dlim_val; [|apply (dlim_sumn n (fun k t => - el y k * (el (<[i := t]> x) k - ln (S t))) _ (fun k => - el y k * ((if decide (k = i) then 1 else 0) - / S (el x i) * exp (el x i))))].
  - assert (softmax_of everything n x i = / S (el x i) * exp (el x i)) as ->.
    { unfold softmax_of. rewrite active_sum_everything. unfold S. rewrite upd_self. unfold Rdiv. lra. }
    set (c := / S (el x i) * exp (el x i)).
    rewrite (sumn_ext n _ (fun k => c * el y k - (if decide (k = i) then el y k else 0))) by (intros k _; destruct (decide (k = i)); lra).
    rewrite sumn_minus, sumn_scal_l, sumn_delta, Hy by done. lra.
  - intros k Hk. apply dlim_scal. apply (derivable_pt_lim_minus (fun t => el (<[i := t]> x) k) (fun t => ln (S t))).
    + apply dlim_el. lia.
    + apply (dlim_comp S ln); [done|]. apply derivable_pt_lim_ln. apply HS.
Qed.

(** Without a target summing to 1 the formula is not the gradient. *)
Theorem C23_cross_entropy_with_softmax_needs_distribution : 
  ~ (forall n (logits target : list R) i, (i < n)%nat -> (n <= length logits)%nat ->
  has_partial (fun x => sumn n (fun k => cross_entropy_reduced_form (softmax_of everything n x k) (el target k)))
    logits i (derivative_cross_entropy_reduced_form_with_softmax (softmax_of everything n logits i) (el target i))).
Proof.
  intros H. specialize (H 1%nat [0] [2] 0%nat ltac:(lia) ltac:(cbn; lia)). unfold has_partial in H.
  assert (E : forall t, softmax_of everything 1 [t] 0 = 1).
  { intros t. unfold softmax_of, active_sum, everything, el. cbn. pose proof (exp_pos t). field. lra. }
  assert (H0 : derivable_pt_lim (fun t => sumn 1 (fun k => cross_entropy_reduced_form (softmax_of everything 1 (<[0%nat:=t]> [0]) k) (el [2] k))) (el [0] 0) 0).
  { eapply dlim_ext; [|apply (dlim_const 0)]. intros t. cbn [sumn]. change (<[0%nat := t]> [0]) with [t]. rewrite E.
    unfold cross_entropy_reduced_form. rewrite decide_False by lra. rewrite ln_1. lra. }
  pose proof (dlim_unique _ _ _ _ H H0) as He. rewrite E in He. unfold derivative_cross_entropy_reduced_form_with_softmax, el in He. cbn in He. lra.
Qed.

(** Huber: the function returns the negated derivative.  Away from the two kinks |p-y| = threshold the
    loss is differentiable with derivative [- derivative_huber_loss]. *)
Theorem C23_huber_partial : forall y_hat y threshold, 0 < threshold -> Rabs (y_hat - y) <> threshold ->
  derivable_pt_lim (fun p => huber_loss p y threshold) y_hat (- derivative_huber_loss y_hat y threshold).
Proof.
  intros p y t Ht Hk. unfold derivative_huber_loss. destruct (decide (Rabs (p - y) <= t)) as [Hle|Hgt].
  - assert (Rabs (p - y) < t) as Hlt by lra. apply Rabs_def2 in Hlt.
    apply (dlim_between _ (fun z => (z - y) * (z - y) / 2) _ _ (y - t) (y + t)); [lra| |].
    + intros z Hz. unfold huber_loss. rewrite decide_True by (left; apply Rabs_def1; lra). rewrite <- Rabs_mult.
      rewrite Rabs_right; [done|]. apply Rle_ge. apply Rle_0_sqr.
    + dlim; [done|]. lra.
  - apply Rnot_le_lt in Hgt. destruct (Rle_dec 0 (p - y)) as [Hs|Hs].
    + rewrite (Rabs_right (p - y)) in * by lra. apply (dlim_gt _ (fun z => t * (z - y) - t * t / 2) _ _ (y + t)); [lra| |].
      * intros z Hz. unfold huber_loss. rewrite (Rabs_right (z - y)) by lra. rewrite decide_False by lra. done.
      * dlim; [done|]. field. lra.
    + rewrite (Rabs_left (p - y)) in * by lra. apply (dlim_lt _ (fun z => t * (- (z - y)) - t * t / 2) _ _ (y - t)); [lra| |].
      * intros z Hz. unfold huber_loss. rewrite (Rabs_left (z - y)) by lra. rewrite decide_False by lra. done.
      * dlim; [done|]. field. lra.
Qed.
(** hence it is the derivative only where that is 0 *)
Theorem C23_huber_refuted :
  ~ (forall y_hat y threshold, 0 < threshold -> Rabs (y_hat - y) <> threshold ->
     derivable_pt_lim (fun p => huber_loss p y threshold) y_hat (derivative_huber_loss y_hat y threshold)).
Proof.
  intros H. specialize (H 1 0 2 ltac:(lra)). rewrite (Rabs_right (1 - 0)) in H by lra. specialize (H ltac:(lra)).
  pose proof (C23_huber_partial 1 0 2 ltac:(lra)) as H2. rewrite (Rabs_right (1 - 0)) in H2 by lra. specialize (H2 ltac:(lra)).
  pose proof (dlim_unique _ _ _ _ H H2) as E. unfold derivative_huber_loss in E. rewrite (Rabs_right (1 - 0)) in E by lra.
  rewrite decide_True in E by lra. lra.
Qed.

Theorem C23_modified_huber : forall y_hat y t1 t2, y * y_hat <> -1 ->
  derivable_pt_lim (fun p => modified_huber_loss p y t1 t2) y_hat (derivative_modified_huber_loss y_hat y t1 t2).
Proof.
  intros p y t1 t2 Hk. unfold derivative_modified_huber_loss.
  assert (Hc : forall (c : R) e, 0 < e -> exists d, 0 < d /\ forall z, Rabs (z - p) < d -> Rabs (y * z - y * p) < e).
  { intros _ e He. exists (e / (1 + Rabs y)). pose proof (Rabs_pos y). split; [apply Rdiv_lt_0_compat; lra|].
    intros z Hz. rewrite <- Rmult_minus_distr_l, Rabs_mult. apply (Rmult_lt_compat_l (1 + Rabs y)) in Hz; [|lra].
    replace ((1 + Rabs y) * (e / (1 + Rabs y))) with e in Hz by (field; lra). pose proof (Rabs_pos (z - p)). nra. }
  destruct (decide (y * p >= -1)) as [Hge|Hlt].
  - destruct (decide (t1 - p * y > 0)) as [Hpos|Hneg].
    + destruct (Hc 0 (Rmin (y * p + 1) (t1 - p * y))) as (d & Hd & Hz); [apply Rmin_pos; lra|].
      apply (dlim_local _ (fun z => (t1 - z * y) * (t1 - z * y)) _ _ d Hd).
      * intros z Hzd. specialize (Hz z Hzd). apply Rabs_def2 in Hz. pose proof (Rmin_l (y * p + 1) (t1 - p * y)). pose proof (Rmin_r (y * p + 1) (t1 - p * y)).
        unfold modified_huber_loss. rewrite decide_True by lra. rewrite decide_True by lra. done.
      * dlim; [done|]. lra.
    + destruct (Req_dec (t1 - p * y) 0) as [He|Hne].
      * (* at the point where the square meets 0 both pieces have slope 0 *)
        destruct (Hc 0 (y * p + 1)) as (d & Hd & Hz); [lra|].
        apply (dlim_local _ (fun z => let u := Rmax 0 (t1 - z * y) in u * u) _ _ d Hd).
        { intros z Hzd. specialize (Hz z Hzd). apply Rabs_def2 in Hz. unfold modified_huber_loss. rewrite decide_True by lra.
          cbv zeta. unfold Rmax. destruct (decide (t1 - z * y > 0)), (Rle_dec 0 (t1 - z * y)); try lra. replace (t1 - z * y) with 0 by lra. lra. }
        intros e He'. assert (Hd2 : 0 < e / (1 + y * y)) by (apply Rdiv_lt_0_compat; nra). exists (mkposreal _ Hd2). intros h Hh Hhl. cbn in Hhl.
        cbv zeta. rewrite He. rewrite (Rmax_left 0 0) by lra.
        assert (Hu : Rabs (Rmax 0 (t1 - (p + h) * y)) <= Rabs (h * y)).
        { replace (t1 - (p + h) * y) with (- (h * y)) by lra. unfold Rmax. destruct (Rle_dec 0 (- (h * y))); [rewrite Rabs_Ropp; lra|]. rewrite Rabs_R0. apply Rabs_pos. }
        set (u := Rmax 0 (t1 - (p + h) * y)) in *.
        replace ((u * u - 0 * 0) / h - 0) with (u * u / h) by (field; lra).
        unfold Rdiv at 1. rewrite !Rabs_mult, Rabs_inv.
        assert (Hah : 0 < Rabs h) by (by apply Rabs_pos_lt).
        apply (Rle_lt_trans _ (Rabs (h * y) * Rabs (h * y) * / Rabs h)).
        { apply Rmult_le_compat_r; [left; by apply Rinv_0_lt_compat|]. apply Rmult_le_compat; auto using Rabs_pos. }
        rewrite Rabs_mult. replace (Rabs h * Rabs y * (Rabs h * Rabs y) * / Rabs h) with (Rabs h * (Rabs y * Rabs y)) by (field; lra).
        rewrite <- Rabs_mult, (Rabs_right (y * y)) by (apply Rle_ge, Rle_0_sqr).
        apply (Rmult_lt_compat_r (1 + y * y)) in Hhl; [|nra]. replace (e / (1 + y * y) * (1 + y * y)) with e in Hhl by (field; nra). nra.
      * destruct (Hc 0 (Rmin (y * p + 1) (- (t1 - p * y)))) as (d & Hd & Hz); [apply Rmin_pos; lra|].
        apply (dlim_local _ (fun z => 0) _ _ d Hd); [|apply dlim_const].
        intros z Hzd. specialize (Hz z Hzd). apply Rabs_def2 in Hz. pose proof (Rmin_l (y * p + 1) (- (t1 - p * y))). pose proof (Rmin_r (y * p + 1) (- (t1 - p * y))).
        unfold modified_huber_loss. rewrite decide_True by lra. rewrite decide_False by lra. done.
  - destruct (Hc 0 (-1 - y * p)) as (d & Hd & Hz); [lra|].
    apply (dlim_local _ (fun z => - t2 * z * y) _ _ d Hd).
    + intros z Hzd. specialize (Hz z Hzd). apply Rabs_def2 in Hz. unfold modified_huber_loss. rewrite decide_False by lra. done.
    + dlim; [done|]. lra.
Qed.

Lemma focal_core t gamma : 0 < t < 1 -> derivable_pt_lim (fun t => - Rpower (1 - t) gamma * ln t) t
  (gamma * Rpower (1 - t) (gamma - 1) * ln t - Rpower (1 - t) gamma / t).
Proof.
  intros Ht. unfold Rpower. dlim; [lra|]. 
  assert (exp ((gamma - 1) * ln (1 - t)) = exp (gamma * ln (1 - t)) * / (1 - t)) as ->.
  { replace ((gamma - 1) * ln (1 - t)) with (gamma * ln (1 - t) + - ln (1 - t)) by lra. rewrite exp_plus. f_equal. rewrite exp_Ropp, exp_ln by lra. done. }
  replace (1 + - t) with (1 - t) by lra. field. lra.
Qed.
(** focal loss with hard labels: -(1-p_t)^gamma ln p_t, p_t the probability of the true class *)
Theorem C23_focal : forall y_hat y gamma, 0 < y_hat < 1 ->
  (let pt := if decide (y = 1) then y_hat else 1 - y_hat in focal_loss y_hat y gamma = - Rpower (1 - pt) gamma * ln pt) /\
  derivable_pt_lim (fun p => focal_loss p y gamma) y_hat (derivative_focal_loss y_hat y gamma).
Proof.
  intros p y gamma Hp. split.
  { cbv zeta. unfold focal_loss. destruct (decide (y = 1)); rewrite !decide_False by lra; done. }
  unfold derivative_focal_loss. destruct (decide (y = 1)) as [Hy|Hy].
  - apply (dlim_between _ (fun t => - Rpower (1 - t) gamma * ln t) _ _ 0 1); [lra| |by apply focal_core].
    intros z Hz. unfold focal_loss. rewrite (decide_True (P := y = 1)) by done. rewrite !decide_False by lra. done.
  - apply (dlim_between _ (fun z => (fun t => - Rpower (1 - t) gamma * ln t) (1 - z)) _ _ 0 1); [lra| |].
    + intros z Hz. unfold focal_loss. rewrite (decide_False (P := y = 1)) by done. rewrite !decide_False by lra. done.
    + eapply dlim_val; [|apply (dlim_comp (fun z => 1 - z) (fun t => - Rpower (1 - t) gamma * ln t) p (-1)); [dlim; [done|lra]|apply focal_core; lra]]. lra.
Qed.

Theorem C23_kl_divergence : forall p q, 0 < p -> 0 < q ->
  derivable_pt_lim (fun p => kl_divergence p q) p (derivative_kl_divergence p q).
Proof.
  intros p q Hp Hq. unfold derivative_kl_divergence. rewrite decide_False by lra.
  apply (dlim_gt _ (fun z => z * ln (z / q)) _ _ 0); [lra| |].
  - intros z Hz. unfold kl_divergence. rewrite !decide_False by lra. done.
  - dlim; [by apply Rdiv_lt_0_compat|]. unfold Rdiv. field. lra.
Qed.
Theorem C23_entropy : forall p, 0 < p -> derivable_pt_lim entropy p (derivative_entropy p).
Proof. intros p Hp. unfold entropy, derivative_entropy. dlim; [lra|]. field. lra. Qed.

(** contrastive loss, labels 0 and 1, prediction (a distance) below the margin *)
Theorem C23_contrastive_partial : forall y_hat y margin, y = 0 \/ y = 1 -> (y = 0 -> y_hat < margin) ->
  exists d, derivative_constrantive_loss y_hat y margin = Some d /\ derivable_pt_lim (fun p => constrantive_loss p y margin) y_hat d.
Proof.
  intros p y m Hy Hm. unfold derivative_constrantive_loss. destruct Hy as [-> | ->].
  - specialize (Hm eq_refl). rewrite decide_True by done. rewrite Rmax_right by lra. rewrite decide_True by lra. eexists. split; [done|].
    apply (dlim_lt _ (fun z => (m - z) * (m - z) / 2) _ _ m); [lra| |dlim; [done|lra]].
    intros z Hz. unfold constrantive_loss. rewrite Rmax_right by lra. field.
  - rewrite decide_False by lra. eexists. split; [done|]. apply (dlim_ext _ (fun z => z * z / 2)); [intros z; unfold constrantive_loss; field|]. dlim; [done|lra].
Qed.
(** dissimilar pair beyond the margin: the loss is differentiable (derivative 0) but nothing is returned *)
Theorem C23_contrastive_refuted : forall y_hat margin, margin < y_hat ->
  derivable_pt_lim (fun p => constrantive_loss p 0 margin) y_hat 0 /\ derivative_constrantive_loss y_hat 0 margin = None.
Proof.
  intros p m H. split.
  - apply (dlim_gt _ (fun _ => 0) _ _ m); [lra| |apply dlim_const]. intros z Hz. unfold constrantive_loss. rewrite Rmax_left by lra. field.
  - unfold derivative_constrantive_loss. rewrite decide_True by done. rewrite Rmax_left by lra. rewrite decide_False by lra. done.
Qed.

(** Total variation: the loss sums |right - left| and |below - above|; the derivative function adds the
    sign to both cells instead of opposite signs, and the loss starts from an uninitialised value. *)
Theorem C23_total_variation_refuted :
  (exists y out, derivative_total_variation_loss_2d y [0; 0] 1 2 = Some out /\
     ~ has_partial (fun y => default 0 (total_variation_loss_2d 0 y 1 2)) y 0 (el out 0)) /\
  (exists y, total_variation_loss_2d 0 y 1 2 <> total_variation_loss_2d 1 y 1 2).
Proof.
  split.
  - exists [0; 1]. unfold derivative_total_variation_loss_2d. cbn [Nat.sub for_loop mbind option_bind]. unfold tv_pair.
    cbn [Nat.sub Nat.mul Nat.add rd lookup list_lookup mbind option_bind]. unfold rd. cbn [lookup list_lookup mbind option_bind].
    rewrite decide_False by lra. rewrite (Rabs_right (1 - 0)) by lra. unfold addat, rd, wr. cbn. eexists. split; [done|].
    intros H. unfold has_partial in H.
    assert (H2 : derivable_pt_lim (fun t => default 0 (total_variation_loss_2d 0 (<[0%nat:=t]> [0; 1]) 1 2)) (el [0; 1] 0) (-1)).
    { change (el [0; 1] 0) with 0. apply (dlim_lt _ (fun t => 1 - t) _ _ 1); [lra| |dlim; [done|lra]]. intros z Hz.
      unfold total_variation_loss_2d, tv_term, rd. cbn. rewrite Rabs_right by lra. lra. }
    pose proof (dlim_unique _ _ _ _ H H2) as E. unfold el in E. cbn in E. lra.
  - exists [0; 0]. unfold total_variation_loss_2d, tv_term, rd. cbn. intros E. injection E as E. rewrite Rminus_0_r, Rabs_R0 in E. lra.
Qed.

(** Array versions *)
Theorem C23_array_versions : forall f y_hat y output size,
  (size <= length y_hat)%nat -> (size <= length y)%nat -> (size <= length output)%nat ->
  (forall i a b, (i < size)%nat -> y_hat !! i = Some a -> y !! i = Some b -> is_Some (f a b)) ->
  exists out, map2_array f y_hat y output size = Some out /\ length out = length output /\
    (forall i a b, (i < size)%nat -> y_hat !! i = Some a -> y !! i = Some b -> out !! i = f a b) /\
    (forall i, (size <= i)%nat -> out !! i = output !! i).
Proof.
  intros f a b output size Ha Hb Ho Hf. unfold map2_array.
  pose proof (Pointwise_loop (length output) size 0 (fun i out => x ← rd a i; y ← rd b i; v ← f x y; wr out i v) (fun i _ => default 0 (f (el a i) (el b i))) ltac:(lia)) as H.
  rewrite H; [|clear H|done].
  - eexists. split; [done|]. rewrite imap_length. split; [done|]. split.
    + intros i x y Hlt Hx Hy. rewrite list_lookup_imap, lookup_el by lia. cbn. rewrite decide_True by lia. rewrite Nat.sub_0_r.
      rewrite (el_lookup _ _ _ Hx), (el_lookup _ _ _ Hy). destruct (Hf i x y Hlt Hx Hy) as [v ->]. done.
    + intros i Hge. rewrite list_lookup_imap. destruct (output !! i); [|done]. cbn. by rewrite decide_False by lia.
  - intros i Hlt l Hl. rewrite !rd_el by lia. cbn [mbind option_bind].
    destruct (Hf i (el a i) (el b i) Hlt (lookup_el a i ltac:(lia)) (lookup_el b i ltac:(lia))) as [v ->]. cbn [mbind option_bind].
    rewrite (Pointwise_wr (length output) i) by lia. done.
Qed.

Example C23_example_huber : derivable_pt_lim (fun p => huber_loss p 0 1) 5 1 /\ derivative_huber_loss 5 0 1 = -1.
Proof.
  assert (E : derivative_huber_loss 5 0 1 = -1) by (unfold derivative_huber_loss; rewrite Rabs_right by lra; rewrite decide_False by lra; field).
  split; [|done]. eapply dlim_val; [|apply C23_huber_partial; [lra|rewrite Rabs_right by lra; lra]]. rewrite E. lra.
Qed.
Example C23_example_softmax : has_partial (fun x => sumn 2 (fun k => cross_entropy_reduced_form (softmax_of everything 2 x k) (el [1; 0] k)))
    [3; 4] 0 (softmax_of everything 2 [3; 4] 0 - 1).
Proof. apply (C23_cross_entropy_with_softmax 2 [3; 4] [1; 0] 0); [lia|cbn; lia|]. unfold el. cbn. lra. Qed.

Print Assumptions C23_cross_entropy_with_softmax.
Print Assumptions C23_focal.
