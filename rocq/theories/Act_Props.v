(** C22: the derivative functions are the derivatives of the activation functions. *)
From Coquelicot Require Import Coquelicot.
From Verif Require Import NumLib Act_Model Deriv.
Open Scope R_scope.

(** Textbook definitions: logistic function, and the standard library's tanh. *)
Definition logistic (x : R) : R := exp x / (1 + exp x).

Theorem C22_sigmoid_is_logistic : forall x, sigmoid x = logistic x.
Proof.
  intros x. unfold sigmoid, logistic. rewrite exp_Ropp. pose proof (exp_pos x). field. lra.
Qed.
Theorem C22_tanhh_is_tanh : forall x, tanhh x = tanh x.
Proof.
  intros x. unfold tanhh, tanh, sinh, cosh. replace (2 * x) with (x + x) by lra. rewrite exp_plus, exp_Ropp.
  pose proof (exp_pos x). assert (exp x * exp x > 0) by (apply Rmult_lt_0_compat; lra). field. repeat split; nra.
Qed.

Theorem C22_sigmoid_derivative : forall x, derivable_pt_lim sigmoid x (derivative_sigmoid x).
Proof.
  intros x. unfold sigmoid, derivative_sigmoid. pose proof (exp_pos (- x)). dlim; [lra|]. unfold sigmoid. field. lra.
Qed.
Theorem C22_sigmoid_derivative_from_output : forall x, derivable_pt_lim sigmoid x (derivative_sigmoid_given_the_sigmoid (sigmoid x)).
Proof. exact C22_sigmoid_derivative. Qed.
Theorem C22_tanh_derivative : forall x, derivable_pt_lim tanhh x (derivative_tanhh x).
Proof.
  intros x. unfold tanhh, derivative_tanhh. pose proof (exp_pos (2 * x)). dlim; [lra|]. unfold tanhh. field. lra.
Qed.
Theorem C22_relu_derivative : forall x, x <> 0 -> derivable_pt_lim relu x (derivative_relu x).
Proof.
  intros x Hx. unfold derivative_relu. destruct (decide (x > 0)).
  - apply (dlim_gt _ (fun z => z) _ _ 0); [lra| |apply derivable_pt_lim_id]. intros z Hz. unfold relu. destruct (decide (z > 0)); lra.
  - apply (dlim_lt _ (fun z => 0) _ _ 0); [lra| |apply derivable_pt_lim_const]. intros z Hz. unfold relu. destruct (decide (z > 0)); lra.
Qed.
Theorem C22_leaky_relu_derivative : forall x, x <> 0 -> derivable_pt_lim leaky_relu x (derivative_leaky_relu x).
Proof.
  intros x Hx. unfold derivative_leaky_relu. destruct (decide (x > 0)).
  - apply (dlim_gt _ (fun z => z) _ _ 0); [lra| |apply derivable_pt_lim_id]. intros z Hz. unfold leaky_relu. destruct (decide (z > 0)); lra.
  - apply (dlim_lt _ (fun z => z * leaky_threshold) _ _ 0); [lra| |].
    + intros z Hz. unfold leaky_relu. destruct (decide (z > 0)); lra.
    + dlim; [done|]. lra.
Qed.
Theorem C22_elu_derivative : forall x a, x <> 0 -> derivable_pt_lim (fun z => elu z a) x (derivative_elu x a).
Proof.
  intros x a Hx. unfold derivative_elu. destruct (decide (x > 0)).
  - apply (dlim_gt _ (fun z => z) _ _ 0); [lra| |apply derivable_pt_lim_id]. intros z Hz. unfold elu. destruct (decide (z > 0)); lra.
  - apply (dlim_lt _ (fun z => a * (exp z - 1)) _ _ 0); [lra| |].
    + intros z Hz. unfold elu. destruct (decide (z > 0)); lra.
    + dlim; [done|]. lra.
Qed.

(** At the kink the value returned is the left derivative: slope of the function on z <= 0. *)
Definition left_derivative (f : R -> R) (x l : R) : Prop :=
  forall e, 0 < e -> exists d, 0 < d /\ forall h, - d < h < 0 -> Rabs ((f (x + h) - f x) / h - l) < e.
Theorem C22_kinks_use_left_derivative : forall a,
  left_derivative relu 0 (derivative_relu 0) /\ left_derivative leaky_relu 0 (derivative_leaky_relu 0) /\
  left_derivative (fun z => elu z a) 0 (derivative_elu 0 a).
Proof.
  intros a. split; [|split].
  - intros e He. exists 1. split; [lra|]. intros h Hh. unfold relu, derivative_relu. rewrite !decide_False by lra.
    replace ((0 - 0) / h - 0) with 0 by (field; lra). rewrite Rabs_R0. lra.
  - intros e He. exists 1. split; [lra|]. intros h Hh. unfold leaky_relu, derivative_leaky_relu. rewrite !decide_False by lra.
    replace (((0 + h) * leaky_threshold - 0 * leaky_threshold) / h - leaky_threshold) with 0 by (field; lra). rewrite Rabs_R0. lra.
  - assert (H : derivable_pt_lim (fun z => a * (exp z - 1)) 0 (a * exp 0)) by (dlim; [done|lra]).
    intros e He. destruct (H e He) as [d Hd]. exists d. split; [apply cond_pos|]. intros h Hh.
    unfold elu, derivative_elu. rewrite !decide_False by lra. apply Hd; [lra|]. apply Rabs_def1; lra.
Qed.

(** Ranges. *)
Theorem C22_ranges : forall x,
  0 < sigmoid x < 1 /\ -1 < tanhh x < 1 /\ 1 / 2 <= abs_sigmoid x < 1 /\ 0 <= relu x /\ 0 < derivative_sigmoid x <= 1 / 4 /\ 0 < derivative_tanhh x <= 1.
Proof.
  intros x.
  assert (Hs : 0 < sigmoid x < 1).
  { unfold sigmoid. pose proof (exp_pos (- x)). split; [apply Rdiv_lt_0_compat; lra|]. apply (Rmult_lt_reg_r (1 + exp (- x))); [lra|]. unfold Rdiv. rewrite Rmult_assoc, Rinv_l by lra. lra. }
  assert (Ht : -1 < tanhh x < 1).
  { unfold tanhh. pose proof (exp_pos (2 * x)). set (y := exp (2 * x)) in *. split; apply (Rmult_lt_reg_r (y + 1)); try lra; unfold Rdiv; rewrite Rmult_assoc, Rinv_l by lra; lra. }
  split; [done|]. split; [done|]. split; [|split; [|split]].
  - unfold abs_sigmoid. assert (0 < exp (- Rabs x) <= 1).
    { split; [apply exp_pos|]. rewrite <- exp_0. pose proof (Rabs_pos x). destruct (Req_dec (Rabs x) 0) as [->|]; [rewrite Ropp_0; lra|]. left. apply exp_increasing. lra. }
    set (y := exp (- Rabs x)) in *. split; [apply (Rmult_le_reg_r (1 + y))|apply (Rmult_lt_reg_r (1 + y))]; try lra; unfold Rdiv; rewrite ?Rmult_assoc, ?Rinv_l by lra; lra.
  - unfold relu. destruct (decide (x > 0)); lra.
  - unfold derivative_sigmoid. set (y := sigmoid x) in *. split; [apply Rmult_lt_0_compat; lra|]. pose proof (Rle_0_sqr (y - 1 / 2)) as Hq. unfold Rsqr in Hq. lra.
  - unfold derivative_tanhh. set (y := tanhh x) in *. split; [|pose proof (Rle_0_sqr y) as Hq; unfold Rsqr in Hq; lra]. replace (1 - y * y) with ((1 - y) * (1 + y)) by ring. apply Rmult_lt_0_compat; lra.
Qed.

Theorem C22_monotone : forall x y, x < y -> sigmoid x < sigmoid y /\ tanhh x < tanhh y /\ relu x <= relu y /\ leaky_relu x < leaky_relu y.
Proof.
  intros x y H. split; [|split; [|split]].
  - rewrite !C22_sigmoid_is_logistic. unfold logistic. pose proof (exp_increasing _ _ H). pose proof (exp_pos x).
    set (a := exp x) in *. set (b := exp y) in *. apply (Rmult_lt_reg_r ((1 + a) * (1 + b))); [nra|].
    replace (a / (1 + a) * ((1 + a) * (1 + b))) with (a * (1 + b)) by (field; lra).
    replace (b / (1 + b) * ((1 + a) * (1 + b))) with (b * (1 + a)) by (field; lra). nra.
  - unfold tanhh. assert (2 * x < 2 * y) as H' by lra. pose proof (exp_increasing _ _ H'). pose proof (exp_pos (2 * x)).
    set (a := exp (2 * x)) in *. set (b := exp (2 * y)) in *. apply (Rmult_lt_reg_r ((a + 1) * (b + 1))); [nra|].
    replace ((a - 1) / (a + 1) * ((a + 1) * (b + 1))) with ((a - 1) * (b + 1)) by (field; lra).
    replace ((b - 1) / (b + 1) * ((a + 1) * (b + 1))) with ((b - 1) * (a + 1)) by (field; lra). nra.
  - unfold relu. repeat destruct (decide _); lra.
  - unfold leaky_relu, leaky_threshold. repeat destruct (decide _); lra.
Qed.

(** The array versions apply the scalar function to the first [size] entries and change nothing else. *)
Theorem C22_array_versions : forall f input output size, (size <= length input)%nat -> (size <= length output)%nat ->
  exists out, map_array f input output size = Some out /\ length out = length output /\
    (forall i x, (i < size)%nat -> input !! i = Some x -> out !! i = Some (f x)) /\
    (forall i, (size <= i)%nat -> out !! i = output !! i).
Proof.
  intros f input output size Hi Ho. unfold map_array.
  pose proof (Pointwise_loop (length output) size 0 (fun i out => x ← rd input i; wr out i (f x)) (fun i _ => f (el input i)) ltac:(lia)) as H.
  rewrite H; [|intros i Hlt l Hl; rewrite rd_el by lia; cbn [mbind option_bind]; rewrite (Pointwise_wr (length output) i) by lia; done|done].
  eexists. split; [done|]. rewrite imap_length. split; [done|]. split.
  - intros i x Hlt Hx. rewrite list_lookup_imap, lookup_el by lia. cbn. rewrite decide_True by lia. rewrite Nat.sub_0_r. by rewrite (el_lookup _ _ _ Hx).
  - intros i Hge. rewrite list_lookup_imap. destruct (output !! i); [|done]. cbn. rewrite decide_False by lia. done.
Qed.

(** Concrete points away from the kink. *)
Example C22_example : derivable_pt_lim leaky_relu (-2) (1 / 10) /\ derivable_pt_lim relu 3 1 /\
  exists out, map_array relu [-1; 2] [7; 7; 7] 2 = Some out.
Proof.
  split; [|split].
  - pose proof (C22_leaky_relu_derivative (-2) ltac:(lra)) as H. unfold derivative_leaky_relu in H. rewrite decide_False in H by lra. exact H.
  - pose proof (C22_relu_derivative 3 ltac:(lra)) as H. unfold derivative_relu in H. rewrite decide_True in H by lra. exact H.
  - destruct (C22_array_versions relu [-1; 2] [7; 7; 7] 2) as (out & H & _); [cbn; lia..|]. eauto.
Qed.

Print Assumptions C22_tanh_derivative.
Print Assumptions C22_kinks_use_left_derivative.
