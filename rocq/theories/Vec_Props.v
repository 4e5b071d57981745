(** C47 dropout, C51 the vector layer. *)
From Coquelicot Require Import Coquelicot.
From Verif Require Import NumLib NumLib2 Grad Deriv Act_Model Act_Props Loss_Model Loss_Props Softmax_Model Softmax_Props FC_Model FC_Spec FC_Proofs FC_Props Attn_Model Vec_Model Vec_Spec Vec_Proofs.
Open Scope nat_scope.

(** * C47 dropout *)

(** Exactly the positions whose draw is below the threshold are zeroed; every other entry keeps its old value. *)
Theorem C47_mask : forall draw size mask thr, size <= length mask ->
  exists m, set_dropout_mask draw size mask thr = Some m /\ length m = length mask /\
    (forall i, i < size -> el m i = if decide (draw i < thr)%R then 0%R else el mask i) /\
    (forall i, size <= i -> m !! i = mask !! i).
Proof.
  intros draw size mask thr Hs. unfold set_dropout_mask.
  destruct (for_loop_inv (fun k m => length m = length mask /\ (forall i, i < k -> el m i = if decide (draw i < thr)%R then 0%R else el mask i) /\
    (forall i, k <= i -> m !! i = mask !! i)) (fun i m => if decide (draw i < thr)%R then wr m i 0%R else Some m) size 0 mask) as (m & E & Hm).
  - split; [done|]. split; [lia|done].
  - intros k m Hk (Hl & H1 & H2). destruct (decide (draw k < thr)%R) as [Hd|Hd].
    + exists (<[k := 0%R]> m). split; [apply wr_Some; lia|]. split; [by rewrite insert_length|]. split.
      * intros i Hi. destruct (decide (i = k)) as [->|]; [rewrite el_upd_eq by lia; by rewrite decide_True|]. rewrite el_upd_ne by done. apply H1. lia.
      * intros i Hi. rewrite list_lookup_insert_ne by lia. apply H2. lia.
    + exists m. split; [done|]. split; [done|]. split; [|intros i Hi; apply H2; lia].
      intros i Hi. destruct (decide (i = k)) as [->|]; [|apply H1; lia]. rewrite decide_False by done. unfold el. by rewrite !nth_lookup, H2.
  - exists m. done.
Qed.

(** the masks after a list of forward passes without a reset in between; pass number p uses the draws ds[p] *)
Fixpoint passes (ds : list (nat -> R)) (size : nat) (thr : R) (mask : list R) : option (list R) :=
  match ds with [] => Some mask | d :: ds => m ← set_dropout_mask d size mask thr; passes ds size thr m end.
(** Without a reset a unit that was dropped once stays dropped: the mask accumulates over the passes. *)
Theorem C47_mask_accumulates_without_reset : forall ds size thr mask, size <= length mask ->
  exists m, passes ds size thr mask = Some m /\ length m = length mask /\
    forall i, i < size -> ((exists d, d ∈ ds /\ (d i < thr)%R) -> el m i = 0%R) /\ ((forall d, d ∈ ds -> ~ (d i < thr)%R) -> el m i = el mask i).
Proof.
  intros ds size thr. induction ds as [|d ds IH]; intros mask Hs.
  - exists mask. split; [done|]. split; [done|]. intros i Hi. split; [|done]. intros (d & Hd & _). by apply elem_of_nil in Hd.
  - destruct (C47_mask d size mask thr Hs) as (m1 & E1 & Hl1 & H1 & _). cbn [passes]. rewrite E1. cbn [mbind option_bind].
    destruct (IH m1 ltac:(lia)) as (m & E & Hl & H). exists m. split; [done|]. split; [lia|]. intros i Hi. destruct (H i Hi) as [Ha Hb]. split.
    + intros (d' & Hd' & Hlt). destruct (decide (Exists (fun d => (d i < thr)%R) ds)) as [Hex|Hno].
      * apply Ha. apply Exists_exists in Hex as (d2 & Hin & ?). exists d2. by rewrite elem_of_list_In.
      * rewrite Hb.
        -- rewrite H1 by done. apply elem_of_cons in Hd' as [->|Hin]; [by rewrite decide_True|]. exfalso. apply Hno, Exists_exists. exists d'. by rewrite <- elem_of_list_In.
        -- intros d2 Hin Hlt2. apply Hno, Exists_exists. exists d2. by rewrite <- elem_of_list_In.
    + intros Hall. rewrite Hb; [|intros d2 Hin; apply Hall; by right]. rewrite H1 by done. rewrite decide_False; [done|]. apply Hall. by left.
Qed.

(** reset, draw, apply: the array a dense layer passes on in training mode *)
Definition dropped (draw : nat -> R) (size : nat) (thr : R) (mask x out : list R) : option (list R) :=
  m ← reset_mask size mask; m ← set_dropout_mask draw size m thr; get_dropout_array size m x out.
Theorem C47_training_output : forall draw size thr mask x out, size <= length mask -> size <= length x -> size <= length out ->
  exists o, dropped draw size thr mask x out = Some o /\ length o = length out /\
    (forall i, i < size -> el o i = if decide (draw i < thr)%R then 0%R else el x i) /\ (forall i, size <= i -> o !! i = out !! i).
Proof.
  intros draw size thr mask x out Hm Hx Ho. unfold dropped, reset_mask.
  destruct (loop_filled size (fun i m => wr m i 1%R) (fun _ => 1%R) mask Hm) as (m1 & E1 & Hl1 & F1 & _); [done|]. rewrite E1. cbn [mbind option_bind].
  destruct (C47_mask draw size m1 thr) as (m2 & E2 & Hl2 & F2 & _); [lia|]. rewrite E2. cbn [mbind option_bind].
  destruct (map2_filled (fun m x => Some (m * x)%R) Rmult m2 x out size) as (o & Eo & Hlo & Fo & Ro); [lia..|done|].
  exists o. split; [exact Eo|]. split; [done|]. split; [|done]. intros i Hi. rewrite Fo, F2 by done. case_decide; [lra|]. rewrite F1 by done. lra.
Qed.
(** Masked units contribute nothing: the next dense layer computes the same whatever they hold. *)
Theorem C47_masked_units_contribute_nothing : forall draw isz osz thr mask x y tx ty out W b,
  isz <= length mask -> length x = isz -> length y = isz -> length tx = isz -> length ty = isz ->
  length W = osz * isz -> length b = osz -> length out = osz ->
  (forall i, i < isz -> ~ (draw i < thr)%R -> el x i = el y i) ->
  (ox ← dropped draw isz thr mask x tx; fc_feed_forward ox out W (Some b) isz osz) =
  (oy ← dropped draw isz thr mask y ty; fc_feed_forward oy out W (Some b) isz osz).
Proof.
  intros draw isz osz thr mask x y tx ty out W b Hm Hx Hy Htx Hty HW Hb Ho Hag.
  destruct (C47_training_output draw isz thr mask x tx) as (ox & Ex & Hlx & Fx & _); [lia..|].
  destruct (C47_training_output draw isz thr mask y ty) as (oy & Ey & Hly & Fy & _); [lia..|].
  rewrite Ex, Ey. cbn [mbind option_bind]. assert (ox = oy) as ->; [|done].
  apply list_eq. intros i. destruct (decide (i < isz)).
  - rewrite !lookup_el by lia. f_equal. rewrite Fx, Fy by done. case_decide; [done|]. by apply Hag.
  - rewrite !lookup_ge_None_2 by lia. done.
Qed.

(** Inference and training mode: going to inference and back restores the layer; inference keeps 1 - threshold. *)
Theorem C47_mode_switch : forall thr s,
  inference_dropout (DROPOUT, thr) = (DROPOUT_TEST, 1 - thr)%R /\
  (s.1 <> DROPOUT_TEST -> train_dropout (inference_dropout s) = s) /\
  inference_dropout (inference_dropout s) = inference_dropout s.
Proof.
  intros thr [f t]. unfold inference_dropout, train_dropout. split; [by rewrite decide_True|]. cbn [fst snd]. split.
  - intros Hf. destruct (decide (f = DROPOUT)) as [->|]; cbn [fst snd]; [rewrite decide_True by done; f_equal; lra|by rewrite decide_False by done].
  - destruct (decide (f = DROPOUT)); cbn [fst snd]; [by rewrite decide_False by done|by rewrite decide_False by done].
Qed.

(** The average over the N+1 equally likely values k/N of one draw (N = RAND_MAX). *)
Definition average (N : nat) (f : R -> R) : R := (sumn (S N) (fun k => f (INR k / INR N)) / INR (S N))%R.
Definition only (i : nat) (a : R) (draw : nat -> R) : nat -> R := fun j => if decide (j = i) then a else draw j.

Lemma count_below N thr : 0 < N -> (0 <= thr <= 1)%R ->
  let c := sumn (S N) (fun k => if decide (INR k / INR N < thr)%R then 1 else 0)%R in (thr * INR N <= c <= thr * INR N + 1)%R.
Proof.
  intros HN Ht. assert (HpN : (0 < INR N)%R) by (apply lt_0_INR; lia).
  assert (Hiff : forall k, (INR k / INR N < thr)%R <-> (INR k < thr * INR N)%R).
  { intros k. split; intros H.
    - apply (Rmult_lt_compat_r (INR N)) in H; [|done]. unfold Rdiv in H. rewrite Rmult_assoc, Rinv_l in H by lra. lra.
    - apply (Rmult_lt_reg_r (INR N)); [done|]. unfold Rdiv. rewrite Rmult_assoc, Rinv_l by lra. lra. }
  assert (H : forall M, let c := sumn M (fun k => if decide (INR k / INR N < thr)%R then 1 else 0)%R in
    (c <= INR M /\ c <= thr * INR N + 1 /\ (INR M <= c \/ thr * INR N <= c))%R).
  { induction M as [|M IH]; cbn [sumn].
    - cbn. split; [lra|]. split; [nra|]. left. lra.
    - destruct IH as (I1 & I2 & I3). rewrite S_INR. set (c := sumn M _) in *. case_decide as Hd.
      + apply Hiff in Hd. split; [lra|]. split; [lra|]. destruct I3 as [I3|I3]; [left; lra|right; lra].
      + assert (~ (INR M < thr * INR N)%R) by (by rewrite <- Hiff). split; [lra|]. split; [lra|]. right. destruct I3; lra. }
  destruct (H (S N)) as (I1 & I2 & I3). cbv zeta. split; [|done]. destruct I3 as [I3|I3]; [|done]. rewrite S_INR in I3. nra.
Qed.
Lemma average_dropout N thr z : 0 < N -> (0 <= thr <= 1)%R ->
  (Rabs (average N (fun a => if decide (a < thr)%R then 0 else z) - z * (1 - thr)) <= Rabs z / INR (S N))%R.
Proof.
  intros HN Ht. pose proof (count_below N thr HN Ht) as Hc. cbv zeta in Hc. set (c := sumn (S N) _) in Hc. unfold average.
  assert (HpS : (0 < INR (S N))%R) by (apply lt_0_INR; lia).
  replace (sumn (S N) (fun k => if decide (INR k / INR N < thr) then 0 else z))%R with (z * (INR (S N) - c))%R.
  2:{ unfold c. rewrite <- (Rmult_1_r (INR (S N))), <- (sumn_const (S N) 1%R). rewrite <- sumn_minus, <- sumn_scal_l. apply sumn_ext. intros k _.
      destruct (decide (INR k / INR N < thr)%R); lra. }
  replace (z * (INR (S N) - c) / INR (S N) - z * (1 - thr))%R with (z * ((thr * INR (S N) - c) * / INR (S N)))%R by (field; lra).
  rewrite !Rabs_mult. unfold Rdiv. apply Rmult_le_compat_l; [apply Rabs_pos|].
  rewrite (Rabs_pos_eq (/ INR (S N))) by (left; by apply Rinv_0_lt_compat).
  rewrite <- (Rmult_1_l (/ INR (S N))) at 2. apply Rmult_le_compat_r; [left; by apply Rinv_0_lt_compat|].
  rewrite S_INR. apply Rabs_le. lra.
Qed.

(** Dense layers: what inference mode passes on is, up to one draw step, the expected training output of the unit. *)
Theorem C47_test_scale_is_the_expectation : forall N draw size thr mask x out i,
  0 < N -> (0 <= thr <= 1)%R -> size <= length mask -> size <= length x -> size <= length out -> i < size ->
  exists o, mul_value x (inference_dropout (DROPOUT, thr)).2 out size = Some o /\
    (Rabs (average N (fun a => match dropped (only i a draw) size thr mask x out with Some o => el o i | None => 0 end) - el o i) <= Rabs (el x i) / INR (S N))%R.
Proof.
  intros N draw size thr mask x out i HN Ht Hm Hx Ho Hi. destruct (map_filled (fun z => z * (inference_dropout (DROPOUT, thr)).2)%R x out size Hx Ho) as (o & E & Hl & F & _).
  exists o. split; [exact E|]. rewrite F by done. unfold inference_dropout. rewrite decide_True by done. cbn [fst snd].
  assert (average N (fun a => match dropped (only i a draw) size thr mask x out with Some o => el o i | None => 0%R end) = average N (fun a => if decide (a < thr)%R then 0 else el x i)%R) as ->; [|by apply average_dropout].
  unfold average. f_equal. apply sumn_ext. intros k _.
  destruct (C47_training_output (only i (INR k / INR N) draw) size thr mask x out Hm Hx Ho) as (o' & E' & _ & F' & _). rewrite E', F' by done.
  unfold only. by rewrite (decide_True (P := i = i)) by done.
Qed.
Example C47_example : exists m, set_dropout_mask (fun i : nat => if decide (i = 1%nat) then 0 else 1)%R 3 [1; 1; 1]%R (1/2) = Some m /\ el m 1 = 0%R /\ el m 2 = 1%R.
Proof.
  destruct (C47_mask (fun i : nat => if decide (i = 1%nat) then 0 else 1)%R 3 [1; 1; 1]%R (1/2)) as (m & E & _ & H & _); [cbn; lia|].
  exists m. split; [done|]. rewrite !H by lia. cbn [decide]. split.
  - rewrite (decide_True (P := 1 = 1)) by done. rewrite decide_True by lra. done.
  - rewrite (decide_False (P := 2 = 1)) by done. rewrite decide_False by lra. done.
Qed.

(** * C51 vector layer *)

(** forward: entrywise function of the input and of the stored vector *)
Theorem C51_forward : forall draw input1 x g def sm,
  elementwise (action x) (activation_flag x) g def sm -> dropout_flag x = NO_DROPOUT -> shaped x ->
  output_size x <= length input1 -> (forall i, i < output_size x -> def (el (stored x) i) (el input1 i)) ->
  exists o, ff_vector1 draw input1 x = Some (with_output x o) /\ length o = length (output x) /\
    (forall i, i < output_size x -> el o i = g (el (stored x) i) (el input1 i)).
Proof. intros. destruct (forward1 draw input1 x g def sm) as (o & E & Hl & H' & _); eauto. Qed.

(** backward: the returned array is the gradient of <output_error, output> with respect to the input,
    whatever the layer's error buffer held before *)
Theorem C51_backward_is_the_gradient : forall draw input1 x oe g def sm x1 k,
  elementwise (action x) (activation_flag x) g def sm -> dropout_flag x = NO_DROPOUT -> shaped x ->
  output_size x <= length input1 -> output_size x <= length oe -> output_size x <= input_size x ->
  (forall i, i < output_size x -> def (el (stored x) i) (el input1 i)) ->
  ff_vector1 draw input1 x = Some x1 -> k < output_size x -> sm (el input1 k) ->
  exists e x2, bp_vector1 input1 x1 oe = Some (e, x2) /\
    has_partial (fun y => inner (output_size x) oe (forward draw x y)) input1 k (el e k).
Proof.
  intros draw input1 x oe g def sm x1 k He Hd Hsh Hi Hoe His Hdef E1 Hk Hsm.
  destruct (forward1 draw input1 x g def sm He Hd Hsh Hi Hdef) as (o & Eo & Hlo & _ & _). rewrite E1 in Eo. injection Eo as ->.
  destruct (backward1 input1 (with_output x o) oe g def sm) as (g' & e & x2 & Eb & Hder & Hval); try done.
  { destruct Hsh as (S1 & S2 & S3 & S4). unfold shaped. cbn. split; [lia|]. done. }
  exists e, x2. split; [done|]. rewrite Hval by done. cbn [stored with_output vv].
  assert (Es : stored (with_output x o) = stored x) by done. rewrite Es.
  destruct (elementwise_open _ _ _ _ _ He _ _ (Hdef k Hk)) as (d & Hdp & Hopen).
  apply (grad_pointwise (output_size x) _ (el oe) (fun i => g (el (stored x) i)) input1 k d); [done..| |by apply Hder; [apply Hdef|]].
  intros t Ht. unfold inner. apply sumn_ext. intros i Hlt. f_equal. unfold forward.
  destruct (forward1 draw (<[k := t]> input1) x g def sm He Hd Hsh) as (o' & Eo' & _ & F' & _).
  - by rewrite insert_length.
  - intros j Hj. destruct (decide (j = k)) as [->|]; [rewrite el_upd_eq by lia; by apply Hopen|]. rewrite el_upd_ne by done. by apply Hdef.
  - rewrite Eo'. cbn [output with_output]. by apply F'.
Qed.
Example C51_example : exists x, elementwise (action x) (activation_flag x) (fun p z => z / p)%R (fun p _ => p <> 0%R) (fun _ => True) /\ shaped x /\ dropout_flag x = NO_DROPOUT /\
  (forall i, i < output_size x -> el (stored x) i <> 0%R) /\ output_size x = 2.
Proof.
  exists (create_vector (Some [2; 3]%R) 2 2 DIVISION NO_ACTIVATION NO_DROPOUT 0 0 2). split; [apply ew_div|]. split.
  - unfold shaped. cbn. split; [done|]. split; [done|]. split; [done|]. intros _. exists [2; 3]%R. done.
  - split; [done|]. split; [|done]. intros i Hi. cbn in Hi. destruct i as [|[|i]]; [cbn; lra..|lia].
Qed.

(** softmax: the derivative is added to whatever the error buffer holds *)
Lemma softmax_forward draw input1 x : action x = NO_ACTION -> activation_flag x = SOFTMAX -> dropout_flag x = NO_DROPOUT ->
  length (output x) = output_size x -> output_size x <= length input1 ->
  exists o, ff_vector1 draw input1 x = Some (with_output x o) /\ length o = output_size x /\
    (forall i, i < output_size x -> el o i = softmax_of everything (output_size x) input1 i).
Proof.
  intros Ha Hf Hd Hlo Hi. unfold ff_vector1. rewrite Ha, Hf, Hd. pick. unfold put_output.
  destruct (decide (0 < output_size x)) as [Hp|Hz].
  - destruct (C21_softmax_is_a_distribution input1 (output x) (output_size x)) as (o & E & Hl & _ & Hv & _); [lia..|]. rewrite E. cbn [mbind option_bind].
    exists o. split; [done|]. split; [lia|]. intros i Hlt. rewrite Hv by done. unfold softmax_of, active_sum, everything. done.
  - assert (Hz0 : output_size x = 0) by lia. rewrite Hz0. cbn. exists (output x). split; [done|]. split; [lia|]. lia.
Qed.
Theorem C51_softmax_backward : forall draw input1 x oe x1, action x = NO_ACTION -> activation_flag x = SOFTMAX -> dropout_flag x = NO_DROPOUT ->
  shaped x -> output_size x <= length input1 -> output_size x <= length oe -> output_size x <= input_size x ->
  ff_vector1 draw input1 x = Some x1 ->
  exists e x2, bp_vector1 input1 x1 oe = Some (e, x2) /\ input_error x2 = e /\
    forall k, k < output_size x -> exists d, el e k = (el (input_error x) k + d)%R /\
      has_partial (fun y => inner (output_size x) oe (forward draw x y)) input1 k d.
Proof.
  intros draw input1 x oe x1 Ha Hf Hd (S1 & S2 & S3 & S4) Hi Hoe His E1.
  destruct (softmax_forward draw input1 x Ha Hf Hd S1 Hi) as (o & Eo & Hlo & Hv). rewrite E1 in Eo. injection Eo as ->.
  destruct (C21_derivative_softmax_is_the_gradient input1 o oe (input_error x) (output_size x)) as (e & Ee & Hle & Hg & _); [lia..|exact Hv|].
  unfold bp_vector1. cbn [action with_output activation_flag input_error output output_size]. rewrite Ha, Hf. pick. rewrite Ee.
  exists e. eexists. split; [done|]. split; [done|]. intros k Hk. destruct (Hg k Hk) as (d & Ed & Hp). exists d. split; [done|].
  unfold has_partial in *. eapply dlim_ext; [|exact Hp]. intros t. unfold inner. apply sumn_ext. intros i Hlt. f_equal. unfold forward.
  destruct (softmax_forward draw (<[k := t]> input1) x Ha Hf Hd S1) as (o' & Eo' & _ & Hv'); [by rewrite insert_length|]. rewrite Eo'. cbn [output with_output]. by apply Hv'.
Qed.
(** Reset does not clear that buffer, so the second training step of a softmax layer returns the sum of both gradients:
    from a fresh layer, forward, backward, reset, forward, backward on the same data gives twice the gradient. *)
Theorem C51_softmax_second_step_refuted : forall draw input1 n is oe, n <= length input1 -> n <= length oe -> n <= is ->
  exists x1 e1 x2 x3 x4 e2 x5,
    ff_vector1 draw input1 (create_vector None n n NO_ACTION SOFTMAX NO_DROPOUT 0 0 is) = Some x1 /\ bp_vector1 input1 x1 oe = Some (e1, x2) /\
    reset_vector x2 = Some x3 /\ ff_vector1 draw input1 x3 = Some x4 /\ bp_vector1 input1 x4 oe = Some (e2, x5) /\
    forall k, k < n -> el e2 k = (2 * el e1 k)%R /\
      has_partial (fun y => inner n oe (forward draw (create_vector None n n NO_ACTION SOFTMAX NO_DROPOUT 0 0 is) y)) input1 k (el e1 k).
Proof.
  intros draw input1 n is oe Hi Hoe His. set (x0 := create_vector None n n NO_ACTION SOFTMAX NO_DROPOUT 0 0 is).
  assert (Hsh : shaped x0). { unfold shaped. split; [cbn; rewrite decide_False by done; by rewrite replicate_length|]. split; [cbn; by rewrite replicate_length|]. split; [done|]. intros [?|[?|[?|?]]]; discriminate. }
  destruct (softmax_forward draw input1 x0 eq_refl eq_refl eq_refl (proj1 Hsh) Hi) as (o1 & E1 & Hl1 & H1).
  destruct (C51_softmax_backward draw input1 x0 oe _ eq_refl eq_refl eq_refl Hsh Hi Hoe His E1) as (e1 & x2 & E2 & Hx2 & Hg).
  assert (E2' := E2). unfold bp_vector1 in E2'. cbn [action with_output activation_flag x0 create_vector] in E2'.
  repeat (rewrite decide_False in E2' by (first [done|(intros [?|?]; discriminate)])). rewrite decide_True in E2' by done.
  unfold own_error in E2'. destruct (derivative_softmax _ _ _ _) as [e1'|] eqn:Eds; [|done]. cbn [mbind option_bind] in E2'. injection E2' as -> Ex2. subst x2.
  destruct (loop_filled n (fun i o => wr o i 0%R) (fun _ => 0%R) o1) as (o2 & E3 & Hl2 & _); [cbn in Hl1; lia|done|].
  set (x3 := with_output (with_error (with_output x0 o1) e1) o2).
  assert (Hle1 : length e1 = is).
  { destruct (C21_derivative_softmax_is_the_gradient input1 o1 oe (input_error x0) n) as (e & Ee & Hle & _); [cbn in *; rewrite ?replicate_length; lia..|exact H1|].
    assert (Q : Some e = Some e1) by exact (eq_trans (eq_sym Ee) Eds). injection Q as <-. rewrite Hle. cbn. by rewrite replicate_length. }
  assert (Hsh3 : shaped x3). { unfold shaped, x3, x0. cbn. cbn in Hl1. split; [lia|]. split; [done|]. split; [done|]. intros [?|[?|[?|?]]]; discriminate. }
  destruct (softmax_forward draw input1 x3 eq_refl eq_refl eq_refl (proj1 Hsh3) Hi) as (o4 & E4 & Hl4 & H4).
  destruct (C51_softmax_backward draw input1 x3 oe _ eq_refl eq_refl eq_refl Hsh3 Hi Hoe His E4) as (e2 & x5 & E5 & Hx5 & Hg2).
  exists (with_output x0 o1), e1. eexists. exists x3. eexists. exists e2, x5. split; [exact E1|]. split; [exact E2|]. split.
  { unfold reset_vector. cbn [action with_error with_output x0 create_vector output output_size]. rewrite decide_True by done. rewrite E3. done. }
  split; [exact E4|]. split; [exact E5|]. intros k Hk.
  destruct (Hg k Hk) as (d & Ed & Hp). destruct (Hg2 k Hk) as (d2 & Ed2 & Hp2).
  assert (El0 : el (input_error x0) k = 0%R) by (cbn; apply el_replicate; lia). rewrite El0 in Ed.
  assert (Ed' : el e1 k = d) by lra.
  assert (d2 = d).
  { eapply dlim_unique; [|exact Hp]. eapply dlim_ext; [|exact Hp2]. intros t. unfold inner. apply sumn_ext. intros i Hlt. f_equal. unfold forward.
    destruct (softmax_forward draw (<[k := t]> input1) x0 eq_refl eq_refl eq_refl (proj1 Hsh)) as (oa & Ea & _ & Ha); [by rewrite insert_length|].
    destruct (softmax_forward draw (<[k := t]> input1) x3 eq_refl eq_refl eq_refl (proj1 Hsh3)) as (ob & Eb & _ & Hb); [by rewrite insert_length|].
    rewrite Ea, Eb. cbn [output with_output]. rewrite Ha by done. rewrite Hb by done. done. }
  subst d2. rewrite Ed'. split; [|exact Hp]. rewrite Ed2. change (input_error x3) with e1. lra.
Qed.

(** dropout through a vector layer *)
Theorem C51_dropout_forward : forall draw input1 x v, dropout_flag x = DROPOUT -> vv x = Some v -> v_size x = output_size x ->
  length v = v_size x -> length (output x) = output_size x -> output_size x <= length input1 ->
  exists o m, ff_vector1 draw input1 x = Some (with_output (with_v x (Some m)) o) /\ length o = output_size x /\
    (forall i, i < output_size x -> el o i = if decide (draw i < dropout_threshold x)%R then 0%R else el input1 i) /\
    (forall i, i < output_size x -> el m i = if decide (draw i < dropout_threshold x)%R then 0%R else 1%R).
Proof.
  intros draw input1 x v Hd Hv Hs Hlv Hlo Hi. unfold ff_vector1. rewrite Hd. rewrite (decide_True (P := DROPOUT = DROPOUT)) by done. rewrite decide_True by done. rewrite Hv. cbn [mbind option_bind].
  destruct (loop_filled (v_size x) (fun i m => wr m i 1%R) (fun _ => 1%R) v) as (m1 & E1 & Hl1 & F1 & _); [lia|done|]. rewrite E1. cbn [mbind option_bind].
  destruct (C47_mask draw (output_size x) m1 (dropout_threshold x)) as (m2 & E2 & Hl2 & F2 & _); [lia|]. rewrite E2. cbn [mbind option_bind].
  destruct (map2_filled (fun a b => Some (a * b)%R) Rmult input1 m2 (output x) (output_size x)) as (o & Eo & Hlo' & Fo & _); [lia..|done|].
  unfold dot1D. rewrite Eo. exists o, m2. split; [done|]. split; [lia|]. split.
  - intros i Hi'. rewrite Fo, F2 by done. case_decide; [lra|]. rewrite F1 by lia. lra.
  - intros i Hi'. rewrite F2 by done. case_decide; [done|]. apply F1. lia.
Qed.
(** test mode scales by 1 - threshold, which is the expected value of the training output up to one draw step *)
Theorem C51_dropout_test_scale : forall N draw input1 x xt v i, dropout_flag x = DROPOUT -> vv x = Some v -> v_size x = output_size x ->
  length v = v_size x -> length (output x) = output_size x -> output_size x <= length input1 -> (0 <= dropout_threshold x <= 1)%R -> 0 < N -> i < output_size x ->
  xt = Vec (vv x) (v_size x) (output_size x) (action x) (activation_flag x) DROPOUT_TEST (vindex x) (dropout_threshold x) (output x) (input_error x) (input_size x) ->
  (Rabs (average N (fun a => el (forward (only i a draw) x input1) i) - el (forward draw xt input1) i) <= Rabs (el input1 i) / INR (S N))%R.
Proof.
  intros N draw input1 x xt v i Hd Hv Hs Hlv Hlo Hi Ht HN Hlt ->.
  assert (Et : forall y, y = el input1 i -> el (forward draw (Vec (vv x) (v_size x) (output_size x) (action x) (activation_flag x) DROPOUT_TEST (vindex x) (dropout_threshold x) (output x) (input_error x) (input_size x)) input1) i = (y * (1 - dropout_threshold x))%R).
  { intros y ->. unfold forward, ff_vector1. cbn [dropout_flag output_size dropout_threshold output]. pick.
    destruct (map_filled (fun z => z * (1 - dropout_threshold x))%R input1 (output x) (output_size x)) as (o & Eo & _ & Fo & _); [lia..|].
    unfold mul_value. rewrite Eo. cbn. by apply Fo. }
  rewrite (Et _ eq_refl).
  assert (average N (fun a => el (forward (only i a draw) x input1) i) = average N (fun a => if decide (a < dropout_threshold x)%R then 0 else el input1 i)%R) as ->; [|by apply average_dropout].
  unfold average. f_equal. apply sumn_ext. intros k _. unfold forward.
  destruct (C51_dropout_forward (only i (INR k / INR N) draw) input1 x v Hd Hv Hs Hlv Hlo Hi) as (o & m & E & _ & F & _). rewrite E. cbn [output with_output with_v].
  rewrite F by done. unfold only. by rewrite (decide_True (P := i = i)) by done.
Qed.
(** The backward pass ignores the dropout flag: a fresh dropout layer returns a zero error for every output error,
    although an undropped unit has derivative one. *)
Theorem C51_dropout_backward_refuted : forall draw input1 n is v thr oe, length v = n -> n <= length input1 -> n <= is ->
  exists x1 e x2, ff_vector1 draw input1 (create_vector (Some v) n n NO_ACTION NO_ACTIVATION DROPOUT 0 thr is) = Some x1 /\
    bp_vector1 input1 x1 oe = Some (e, x2) /\ (forall k, el e k = 0%R) /\
    (forall k, k < n -> ~ (draw k < thr)%R -> n <= length oe ->
       has_partial (fun y => inner n oe (forward draw (create_vector (Some v) n n NO_ACTION NO_ACTIVATION DROPOUT 0 thr is) y)) input1 k (el oe k)).
Proof.
  intros draw input1 n is v thr oe Hlv Hi His. set (x := create_vector (Some v) n n NO_ACTION NO_ACTIVATION DROPOUT 0 thr is).
  assert (Hlo : length (output x) = output_size x) by (cbn; rewrite decide_False by done; by rewrite replicate_length).
  destruct (C51_dropout_forward draw input1 x v eq_refl eq_refl eq_refl Hlv Hlo Hi) as (o & m & E & Hl & F & _).
  eexists. exists (replicate is 0%R). eexists. split; [exact E|]. split; [reflexivity|]. split.
  - intros k. destruct (decide (k < is)); [by apply el_replicate|]. apply el_ge. rewrite replicate_length. lia.
  - intros k Hk Hnd Hoe. replace (el oe k) with (el oe k * 1)%R by lra.
    apply (grad_pointwise n _ (el oe) (fun i z => if decide (draw i < thr)%R then 0%R else z) input1 k 1%R); [done|done|lra| |].
    + intros t _. unfold inner. apply sumn_ext. intros i Hlt. f_equal. unfold forward.
      destruct (C51_dropout_forward draw (<[k := t]> input1) x v eq_refl eq_refl eq_refl Hlv Hlo) as (o' & m' & E' & _ & F' & _); [by rewrite insert_length|].
      rewrite E'. cbn [output with_output with_v]. by apply F'.
    + eapply dlim_ext; [intros z; rewrite decide_False by done; reflexivity|]. apply dlim_id.
Qed.

(** GET_MAX: the first position of the maximum is set to 1, if some entry exceeds -1; otherwise the code writes
    output[-1] *)
Lemma get_max_run input1 n : n <= length input1 -> exists r, get_max input1 n = Some r /\
  match r with
  | Some i => i < n /\ (el input1 i > -1)%R /\ (forall j, j < n -> (el input1 j <= el input1 i)%R) /\ (forall j, j < i -> (el input1 j < el input1 i)%R)
  | None => forall j, j < n -> (el input1 j <= -1)%R
  end.
Proof.
  intros Hn. unfold get_max.
  destruct (for_loop_inv (fun k (s : option nat * R) => match s.1 with
    | Some i => i < k /\ s.2 = el input1 i /\ (el input1 i > -1)%R /\ (forall j, j < k -> (el input1 j <= el input1 i)%R) /\ (forall j, j < i -> (el input1 j < el input1 i)%R)
    | None => s.2 = (-1)%R /\ forall j, j < k -> (el input1 j <= -1)%R end)
    (fun i s => x ← rd input1 i; Some (if decide (x > s.2)%R then (Some i, x) else s)) n 0 (None, (-1)%R)) as ((r & m) & E & Hr).
  - cbn. split; [done|]. lia.
  - intros k [[i|] m] Hk H; cbn [fst snd] in *; rewrite rd_el by lia; cbn [mbind option_bind].
    + destruct H as (H1 & -> & H2 & H3 & H4). eexists. split; [done|]. case_decide; cbn [fst snd].
      * split; [lia|]. split; [done|]. split; [lra|]. split.
        -- intros j Hj. destruct (decide (j = k)) as [->|]; [lra|]. pose proof (H3 j ltac:(lia)). lra.
        -- intros j Hj. pose proof (H3 j ltac:(lia)). lra.
      * split; [lia|]. split; [done|]. split; [done|]. split; [|done]. intros j Hj. destruct (decide (j = k)) as [->|]; [lra|]. apply H3. lia.
    + destruct H as (-> & H). eexists. split; [done|]. case_decide; cbn [fst snd].
      * split; [lia|]. split; [done|]. split; [lra|]. split.
        -- intros j Hj. destruct (decide (j = k)) as [->|]; [lra|]. pose proof (H j ltac:(lia)). lra.
        -- intros j Hj. pose proof (H j ltac:(lia)). lra.
      * split; [done|]. intros j Hj. destruct (decide (j = k)) as [->|]; [lra|]. apply H. lia.
  - rewrite E. cbn [mbind option_bind fst]. exists r. split; [done|]. cbn in Hr. destruct r as [i|]; [|by apply Hr]. destruct Hr as (H1 & _ & H2 & H3 & H4). done.
Qed.
Theorem C51_get_max : forall draw input1 x, action x = GET_MAX -> dropout_flag x = NO_DROPOUT -> v_size x = output_size x ->
  length (output x) = output_size x -> output_size x <= length input1 ->
  ((exists j, j < output_size x /\ (el input1 j > -1)%R) ->
   exists i, i < output_size x /\ (forall j, j < output_size x -> (el input1 j <= el input1 i)%R) /\ (forall j, j < i -> (el input1 j < el input1 i)%R) /\
     ff_vector1 draw input1 x = Some (with_output x (<[i := 1%R]> (output x)))) /\
  ((forall j, j < output_size x -> (el input1 j <= -1)%R) -> ff_vector1 draw input1 x = None).
Proof.
  intros draw input1 x Ha Hd Hs Hlo Hi. destruct (get_max_run input1 (output_size x) Hi) as (r & E & Hr).
  assert (Eff : ff_vector1 draw input1 x = (i ← r; put_output x (wr (output x) i 1%R))).
  { unfold ff_vector1. rewrite Ha, Hd. pick. rewrite same_size_yes by done. by rewrite E. }
  rewrite Eff. destruct r as [i|]; cbn [mbind option_bind].
  - destruct Hr as (H1 & H2 & H3 & H4). split.
    + intros _. exists i. split; [done|]. split; [done|]. split; [done|]. unfold put_output. rewrite wr_Some by lia. done.
    + intros Hall. pose proof (Hall i H1). lra.
  - split; [|done]. intros (j & Hj & Hgt). pose proof (Hr j Hj). lra.
Qed.

(** RESIZE: the output is the input from index on; after a reset the error is the gradient for every input entry *)
Theorem C51_resize : forall draw input1 x oe x0 k, action x = RESIZE -> dropout_flag x = NO_DROPOUT -> length (input_error x) = input_size x ->
  length input1 = input_size x -> output_size x <= length oe -> vindex x + output_size x <= input_size x -> reset_vector x = Some x0 -> k < input_size x ->
  exists x1 e x2, ff_vector1 draw input1 x0 = Some x1 /\ (forall i, i < output_size x -> el (output x1) i = el input1 (vindex x + i)) /\
    bp_vector1 input1 x1 oe = Some (e, x2) /\ has_partial (fun y => inner (output_size x) oe (forward draw x y)) input1 k (el e k).
Proof.
  intros draw input1 x oe x0 k Ha Hd Hlie Hl1 Hoe Hfit E0 Hk. unfold reset_vector in E0. rewrite Ha in E0. rewrite decide_False in E0 by tauto.
  destruct (loop_filled (input_size x) (fun i o => wr o i 0%R) (fun _ => 0%R) (input_error x)) as (z & Ez & Hlz & Fz & _); [lia|done|].
  rewrite Ez in E0. injection E0 as <-.
  assert (Hf : forall y, forward draw x y = drop (vindex x) y) by (intros y; unfold forward, ff_vector1; rewrite Ha, Hd; by pick).
  assert (E1 : ff_vector1 draw input1 (with_error x z) = Some (with_output (with_error x z) (drop (vindex x) input1))).
  { unfold ff_vector1. cbn [dropout_flag action with_error]. rewrite Ha, Hd. by pick. }
  exists (with_output (with_error x z) (drop (vindex x) input1)).
  destruct (for_loop_inv (fun c l => length l = length z /\ (forall i, i < c -> el l (vindex x + i) = el oe i) /\ (forall i, i < vindex x \/ vindex x + c <= i -> el l i = el z i))
    (fun i d => x0 ← rd oe (0 + i); wr d (vindex x + i) x0) (output_size x) 0 z) as (e & Ee & Hle & F1 & F2).
  { split; [done|]. split; [lia|done]. }
  { intros c l Hc (I1 & I2 & I3). rewrite rd_el by lia. cbn [mbind option_bind]. eexists. split; [apply wr_Some; lia|]. split; [by rewrite insert_length|]. split.
    - intros i Hi. destruct (decide (i = c)) as [->|]; [by rewrite el_upd_eq by lia|]. rewrite el_upd_ne by lia. apply I2. lia.
    - intros i Hi. rewrite el_upd_ne by lia. apply I3. lia. }
  exists e. eexists. split; [exact E1|]. split; [intros i Hi; cbn; apply el_drop|]. split.
  - unfold bp_vector1. cbn [action with_output with_error input_error vindex output_size input_size]. rewrite Ha. pick. rewrite Nat.min_l by lia.
    unfold copy_array. rewrite Ee. reflexivity.
  - unfold has_partial. apply (dlim_ext _ (fun t => sumn (output_size x) (fun i => el oe i * el (<[k := t]> input1) (vindex x + i)%nat)%R)); [intros t; rewrite Hf; unfold inner; apply sumn_ext; intros i Hi; by rewrite el_drop|].
    eapply dlim_val; [|apply (dlim_sumn (output_size x) (fun i t => el oe i * el (<[k := t]> input1) (vindex x + i)%nat)%R _ (fun i => if decide (vindex x + i = k) then el oe i else 0%R))].
    + destruct (decide (vindex x <= k < vindex x + output_size x)) as [Hin|Hout].
      * rewrite (sumn_single _ (k - vindex x)); [|lia|intros i Hi Hne; rewrite decide_False; [done|lia]]. rewrite decide_True by lia.
        rewrite <- F1 by lia. f_equal. lia.
      * rewrite sumn_0; [|intros i Hi; rewrite decide_False; [done|lia]]. rewrite F2 by lia. rewrite Fz by done. done.
    + intros i Hi. eapply dlim_val; [|apply dlim_scal, dlim_el; lia]. case_decide; lra.
Qed.

(** two inputs *)
Theorem C51_two_inputs : forall input1 input2 x g def, elementwise2 (action x) g def -> length (output x) = output_size x ->
  (action x = ADDITION -> v_size x = output_size x) -> output_size x <= length input1 -> output_size x <= length input2 ->
  (forall i, i < output_size x -> def (el input1 i) (el input2 i)) ->
  exists o, ff_vector2 input1 input2 x = Some (with_output x o) /\ forall i, i < output_size x -> el o i = g (el input1 i) (el input2 i).
Proof. intros. destruct (forward2_run (action x) g def input1 input2 x) as (o & E & _ & Hf & _); eauto. Qed.

(** the error array holds the gradient for the first input, then the gradient for the second one (for
    ADDITION the same array serves both) *)
Theorem C51_two_inputs_backward : forall input1 input2 x g def oe x1 k, elementwise2 (action x) g def -> length (output x) = output_size x ->
  (action x = ADDITION -> v_size x = output_size x) -> output_size x <= length input1 -> output_size x <= length input2 ->
  output_size x <= length oe -> output_size x + output_size x <= length (input_error x) ->
  (forall i, i < output_size x -> def (el input1 i) (el input2 i)) -> ff_vector2 input1 input2 x = Some x1 -> k < output_size x ->
  exists e x2, bp_vector2 input1 input2 x1 oe = Some (e, x2) /\
    has_partial (fun y => inner (output_size x) oe (forward2 x y input2)) input1 k (el e k) /\
    has_partial (fun y => inner (output_size x) oe (forward2 x input1 y)) input2 k (el e (if decide (action x = ADDITION) then k else output_size x + k)).
Proof.
  intros input1 input2 x g def oe x1 k He Hlo Hs H1 H2 Hoe Hie Hdef E1 Hk.
  destruct (forward2_run (action x) g def input1 input2 x eq_refl He Hlo Hs H1 H2 Hdef) as (o & Eo & Hlo' & _ & _). rewrite E1 in Eo. injection Eo as ->.
  assert (Hopen : forall a b, def a b -> exists d, (0 < d)%R /\ (forall t, (Rabs (t - a) < d)%R -> def t b) /\ (forall t, (Rabs (t - b) < d)%R -> def a t)).
  { intros a b Hab. destruct He; try (exists 1%R; split; [lra|]; done). exists (Rabs b). split; [by apply Rabs_pos_lt|]. split; [done|].
    intros t Ht ->. replace (0 - b)%R with (- b)%R in Ht by lra. rewrite Rabs_Ropp in Ht. lra. }
  destruct (Hopen _ _ (Hdef k Hk)) as (d & Hd & Ho1 & Ho2).
  assert (HF : forall y z, output_size x <= length y -> output_size x <= length z -> (forall i, i < output_size x -> def (el y i) (el z i)) ->
    inner (output_size x) oe (forward2 x y z) = sumn (output_size x) (fun i => el oe i * g (el y i) (el z i))%R).
  { intros y z Hy Hz Hyz. unfold inner, forward2. destruct (forward2_run (action x) g def y z x eq_refl He Hlo Hs Hy Hz Hyz) as (o' & E' & _ & F' & _).
    rewrite E'. cbn [output with_output]. apply sumn_ext. intros i Hi. by rewrite F'. }
  assert (Hg : forall da db, derivable_pt_lim (fun a => g a (el input2 k)) (el input1 k) da -> derivable_pt_lim (g (el input1 k)) (el input2 k) db ->
    has_partial (fun y => inner (output_size x) oe (forward2 x y input2)) input1 k (el oe k * da) /\
    has_partial (fun y => inner (output_size x) oe (forward2 x input1 y)) input2 k (el oe k * db)).
  { intros da db Hda Hdb. split.
    - apply (grad_pointwise (output_size x) _ (el oe) (fun i a => g a (el input2 i)) input1 k d); [done..| |done].
      intros t Ht. apply HF; [by rewrite insert_length|done|]. intros i Hi. destruct (decide (i = k)) as [->|]; [rewrite el_upd_eq by lia; auto|]. rewrite el_upd_ne by done. auto.
    - apply (grad_pointwise (output_size x) _ (el oe) (fun i b => g (el input1 i) b) input2 k d); [done..| |done].
      intros t Ht. apply HF; [done|by rewrite insert_length|]. intros i Hi. destruct (decide (i = k)) as [->|]; [rewrite el_upd_eq by lia; auto|]. rewrite el_upd_ne by done. auto. }
  destruct (decide (action x = ADDITION)) as [Ha|Hna].
  - exists oe. eexists. split.
    { unfold bp_vector2. cbn [action with_output]. rewrite decide_True by auto. done. }
    assert (Eg : g = Rplus). { remember (action x) as ac eqn:Eac. clear Eac. destruct He; done. }
    destruct (Hg 1%R 1%R) as [G1 G2]; [rewrite Eg; dlim; [done|lra]..|]. rewrite Rmult_1_r in G1, G2. done.
  - destruct (backward2_run (action x) g def input1 input2 (with_output x o) oe eq_refl He Hna H1 H2 Hoe Hie Hdef) as (ga & gb & e & x2 & Eb & Hder & Hval).
    exists e, x2. split; [done|]. destruct (Hval k Hk) as [V1 V2]. cbn [output_size with_output] in V1, V2. rewrite V1, V2.
    destruct (Hder _ _ (Hdef k Hk)) as [D1 D2]. by apply Hg.
Qed.

(** every other action code concatenates -- and is permanently replaced by CONCATENATE *)
Lemma copy_run src dst od n : n <= length src -> od + n <= length dst ->
  exists d, copy_array src 0 dst od n = Some d /\ length d = length dst /\ (forall i, i < n -> el d (od + i) = el src i) /\
    (forall i, i < od \/ od + n <= i -> d !! i = dst !! i).
Proof.
  intros Hs Hd. unfold copy_array.
  destruct (for_loop_inv (fun c l => length l = length dst /\ (forall i, i < c -> el l (od + i) = el src i) /\ (forall i, i < od \/ od + c <= i -> l !! i = dst !! i))
    (fun i d => x ← rd src (0 + i); wr d (od + i) x) n 0 dst) as (e & Ee & He).
  { split; [done|]. split; [lia|done]. }
  { intros c l Hc (I1 & I2 & I3). rewrite rd_el by lia. cbn [mbind option_bind]. eexists. split; [apply wr_Some; lia|]. split; [by rewrite insert_length|]. split.
    - intros i Hi. destruct (decide (i = c)) as [->|]; [by rewrite el_upd_eq by lia|]. rewrite el_upd_ne by lia. apply I2. lia.
    - intros i Hi. rewrite list_lookup_insert_ne by lia. apply I3. lia. }
  exists e. done.
Qed.
Theorem C51_concatenation : forall input1 input2 x, ~ binary (action x) -> length (output x) = output_size x -> vindex x <= output_size x ->
  length input1 = vindex x -> length input2 = output_size x - vindex x ->
  ff_vector2 input1 input2 x = Some (with_output (with_action x CONCATENATE) (input1 ++ input2)).
Proof.
  intros input1 input2 x Hb Hlo Hi H1 H2. unfold ff_vector2. unfold binary in Hb.
  rewrite !decide_False by tauto. rewrite decide_True by done.
  destruct (copy_run input1 (output x) 0 (vindex x)) as (d1 & E1 & Hl1 & F1 & _); [lia..|]. rewrite E1. cbn [mbind option_bind].
  destruct (copy_run input2 d1 (vindex x) (output_size x - vindex x)) as (d2 & E2 & Hl2 & F2 & R2); [lia..|]. unfold put_output. rewrite E2. cbn [mbind option_bind].
  do 2 f_equal. apply list_eq. intros i. destruct (decide (i < vindex x)).
  - rewrite R2 by lia. rewrite lookup_app_l by lia. rewrite !lookup_el by lia. f_equal. rewrite <- F1 by done. done.
  - rewrite lookup_app_r by lia. destruct (decide (i < output_size x)).
    + rewrite !lookup_el by lia. f_equal. rewrite <- F2 by lia. f_equal. lia.
    + rewrite !lookup_ge_None_2 by lia. done.
Qed.
(** its backward pass hands the output error on: the two slices are the gradients *)
Theorem C51_concatenation_backward : forall input1 input2 x oe x1, ~ binary (action x) -> length (output x) = output_size x -> vindex x <= output_size x ->
  length input1 = vindex x -> length input2 = output_size x - vindex x -> output_size x <= length oe -> ff_vector2 input1 input2 x = Some x1 ->
  exists e x2, bp_vector2 input1 input2 x1 oe = Some (e, x2) /\
    (forall k, k < vindex x -> has_partial (fun y => inner (output_size x) oe (forward2 x y input2)) input1 k (el e k)) /\
    (forall k, vindex x <= k < output_size x -> has_partial (fun y => inner (output_size x) oe (forward2 x input1 y)) input2 (k - vindex x) (el e k)).
Proof.
  intros input1 input2 x oe x1 Hb Hlo Hi H1 H2 Hoe E1. rewrite C51_concatenation in E1 by done. injection E1 as <-.
  exists oe. eexists. split; [unfold bp_vector2; cbn [action with_output with_action]; rewrite decide_True by auto; reflexivity|]. split; intros k Hk; unfold has_partial.
  - apply (dlim_ext _ (fun t => sumn (output_size x) (fun i => el oe i * el (<[k := t]> (input1 ++ input2)) i)%R)).
    + intros t. unfold inner, forward2. rewrite C51_concatenation by (rewrite ?insert_length; done). cbn [output with_output]. by rewrite insert_app_l by lia.
    + replace (el input1 k) with (el (input1 ++ input2) k) by (apply el_app_l; lia).
      eapply dlim_val; [|apply (dlim_sumn (output_size x) (fun i t => el oe i * el (<[k := t]> (input1 ++ input2)) i)%R _ (fun i => if decide (i = k) then el oe i else 0)%R)].
      * apply (sumn_delta _ k (el oe)). lia.
      * intros i Hlt. eapply dlim_val; [|apply dlim_scal, dlim_el; rewrite app_length; lia]. case_decide; lra.
  - apply (dlim_ext _ (fun t => sumn (output_size x) (fun i => el oe i * el (<[k := t]> (input1 ++ input2)) i)%R)).
    + intros t. unfold inner, forward2. rewrite C51_concatenation by (rewrite ?insert_length; done). cbn [output with_output].
      rewrite insert_app_r_alt by lia. by rewrite H1.
    + replace (el input2 (k - vindex x)) with (el (input1 ++ input2) k) by (rewrite <- (el_app_r input1 input2); f_equal; lia).
      eapply dlim_val; [|apply (dlim_sumn (output_size x) (fun i t => el oe i * el (<[k := t]> (input1 ++ input2)) i)%R _ (fun i => if decide (i = k) then el oe i else 0)%R)].
      * apply (sumn_delta _ k (el oe)). lia.
      * intros i Hlt. eapply dlim_val; [|apply dlim_scal, dlim_el; rewrite app_length; lia]. case_decide; lra.
Qed.
Theorem C51_configuration_overwritten_refuted : exists input1 input2 x x', ff_vector2 input1 input2 x = Some x' /\ action x = NO_ACTION /\ action x' = CONCATENATE.
Proof.
  exists [1]%R, [2]%R, (create_vector None 2 2 NO_ACTION SIGMOID NO_DROPOUT 1 0 2). eexists. split; [|split; [done|]].
  - apply C51_concatenation; [|done|cbn; lia|done|done]. intros [?|[?|[?|?]]]; discriminate.
  - done.
Qed.

(** * saving, loading, copying *)

(** Loading a saved layer restores its configuration and consumes exactly its bytes, but the stored vector is lost. *)
Theorem C51_load_loses_the_vector : forall x rest, (forall v, vv x = Some v -> length v = v_size x) ->
  exists y, load_vector (save_vector x ++ rest) = Some (y, rest) /\ vv y = None /\
    v_size y = v_size x /\ output_size y = output_size x /\ action y = action x /\ activation_flag y = activation_flag x /\
    dropout_flag y = dropout_flag x /\ vindex y = vindex x /\ dropout_threshold y = dropout_threshold x /\ input_size y = input_size x.
Proof.
  intros x rest Hl. unfold save_vector, load_vector. destruct (vv x) as [v|] eqn:E; cbn [app].
  - rewrite decide_False by tauto. rewrite decide_True by (rewrite take_length, (Hl v eq_refl); lia). eexists. split; [reflexivity|]. done.
  - rewrite decide_True by done. eexists. split; [reflexivity|]. done.
Qed.
Theorem C51_save_load_refuted : exists x input1 draw y, shaped x /\ load_vector (save_vector x) = Some (y, []) /\
  ff_vector1 draw input1 x <> None /\ ff_vector1 draw input1 y = None.
Proof.
  exists (create_vector (Some [1; 2]%R) 2 2 ADDITION NO_ACTIVATION NO_DROPOUT 0 0 2), [5; 6]%R, (fun _ => 0%R). eexists. split; [|split; [reflexivity|split]].
  - unfold shaped. cbn. split; [done|]. split; [done|]. split; [done|]. intros _. exists [1; 2]%R. done.
  - destruct (C51_forward (fun _ => 0%R) [5; 6]%R (create_vector (Some [1; 2]%R) 2 2 ADDITION NO_ACTIVATION NO_DROPOUT 0 0 2) _ _ _ (ew_add _)) as (o & E & _); [done| |cbn; lia|done|].
    + unfold shaped. cbn. split; [done|]. split; [done|]. split; [done|]. intros _. exists [1; 2]%R. done.
    + by rewrite E.
  - reflexivity.
Qed.
(** A copy behaves like the original from a fresh output: same configuration, same stored values. *)
Theorem C51_copy : forall x, (forall v, vv x = Some v -> length v = v_size x) ->
  vv (copy_vector x) = vv x /\ (shaped x -> action x <> RESIZE -> shaped (copy_vector x)) /\
  action (copy_vector x) = action x /\ activation_flag (copy_vector x) = activation_flag x /\ output_size (copy_vector x) = output_size x /\
  v_size (copy_vector x) = v_size x /\ dropout_flag (copy_vector x) = dropout_flag x /\ vindex (copy_vector x) = vindex x /\
  dropout_threshold (copy_vector x) = dropout_threshold x /\ input_size (copy_vector x) = input_size x /\ length (input_error (copy_vector x)) = input_size x.
Proof.
  intros x Hl. assert (Ev : vv (copy_vector x) = vv x).
  { cbn. destruct (vv x) as [v|] eqn:E; [|done]. f_equal. apply take_ge. rewrite (Hl v eq_refl). lia. }
  split; [done|]. split; [|repeat split; cbn; apply replicate_length]. intros (S1 & S2 & S3 & S4) Hr. unfold shaped. rewrite Ev. cbn. rewrite decide_False by done. rewrite !replicate_length. done.
Qed.

Print Assumptions C47_test_scale_is_the_expectation.
Print Assumptions C47_masked_units_contribute_nothing.
Print Assumptions C51_backward_is_the_gradient.
Print Assumptions C51_two_inputs_backward.
Print Assumptions C51_softmax_second_step_refuted.
