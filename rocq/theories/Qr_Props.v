(** C55: the quantile-regression losses. *)
From Coq Require Import Psatz.
From Coquelicot Require Import Coquelicot.
From Verif Require Import NumLib NumLib2 BaseLemmas RealSum Deriv Grad.
From Verif Require Import Qr_Model.
Open Scope R_scope.

(** *** Specification *)
(** the quantile Huber loss of a prediction p of the quantile at fraction tau, for a target y: the Huber loss of y - p
    (threshold 1) weighed by tau when p is below the target and by 1 - tau when it is above *)
Definition huber (d : R) : R := if Rle_dec (Rabs d) 1 then d * d / 2 else Rabs d - 1 / 2.
Definition quantile_loss (tau y p : R) : R := (if Rlt_dec y p then 1 - tau else tau) * huber (y - p).

(** *** Proofs *)
Lemma dlim_glue (f g k : R -> R) x l : (forall z, z <= x -> f z = g z) -> (forall z, x <= z -> f z = k z) ->
  derivable_pt_lim g x l -> derivable_pt_lim k x l -> derivable_pt_lim f x l.
Proof.
  intros Hg Hk Dg Dk e He. destruct (Dg e He) as [dg Hdg]. destruct (Dk e He) as [dk Hdk].
  assert (Hm : 0 < Rmin dg dk) by (apply Rmin_pos; apply cond_pos). exists (mkposreal _ Hm). intros h Hh Hl. cbn in Hl.
  pose proof (Rmin_l dg dk). pose proof (Rmin_r dg dk). destruct (Rle_dec h 0).
  - rewrite !Hg by lra. apply Hdg; [done|lra].
  - rewrite !Hk by lra. apply Hdk; [done|lra].
Qed.
Definition limited (d : R) : R := Rmax (-1) (Rmin 1 d).
Lemma huber_deriv d : derivable_pt_lim huber d (limited d).
Proof.
  assert (Hq : forall x l, l = x -> derivable_pt_lim (fun z => z * z / 2) x l) by (intros x l ->; dlim; [done|lra]).
  assert (Hu : forall x, derivable_pt_lim (fun z => z - 1 / 2) x 1) by (intros; dlim; [done|lra]).
  assert (Hd : forall x, derivable_pt_lim (fun z => - z - 1 / 2) x (-1)) by (intros; dlim; [done|lra]).
  assert (F1 : forall z, -1 <= z <= 1 -> huber z = z * z / 2). { intros z Hz. unfold huber. destruct (Rle_dec _ _) as [|Hn]; [done|]. exfalso. apply Hn. apply Rabs_le. lra. }
  assert (F2 : forall z, 1 <= z -> huber z = z - 1 / 2). { intros z Hz. unfold huber. rewrite Rabs_right by lra. destruct (Rle_dec _ _); [|done]. replace z with 1 by lra. lra. }
  assert (F3 : forall z, z <= -1 -> huber z = - z - 1 / 2). { intros z Hz. unfold huber. rewrite Rabs_left by lra. destruct (Rle_dec _ _); [|done]. replace z with (-1) by lra. lra. }
  unfold limited. destruct (Rlt_dec d (-1)).
  { rewrite Rmin_right by lra. rewrite Rmax_left by lra. apply (dlim_lt _ (fun z => - z - 1 / 2) _ _ (-1)); [done| |apply Hd]. intros z Hz. apply F3. lra. }
  destruct (Rlt_dec 1 d).
  { rewrite Rmin_left by lra. rewrite Rmax_right by lra. apply (dlim_gt _ (fun z => z - 1 / 2) _ _ 1); [done| |apply Hu]. intros z Hz. apply F2. lra. }
  rewrite Rmin_right by lra. rewrite Rmax_right by lra.
  destruct (Req_dec d 1) as [->|].
  { apply (dlim_local _ (fun z => if Rle_dec z 1 then z * z / 2 else z - 1 / 2) _ _ 1); [lra| |].
    - intros z Hz. apply Rabs_def2 in Hz. destruct (Rle_dec z 1); [apply F1; lra|apply F2; lra].
    - apply (dlim_glue _ (fun z => z * z / 2) (fun z => z - 1 / 2)); [| |by apply Hq|apply Hu].
      + intros z Hz. by destruct (Rle_dec z 1).
      + intros z Hz. destruct (Rle_dec z 1); [|done]. replace z with 1 by lra. lra. }
  destruct (Req_dec d (-1)) as [->|].
  { apply (dlim_local _ (fun z => if Rle_dec (-1) z then z * z / 2 else - z - 1 / 2) _ _ 1); [lra| |].
    - intros z Hz. apply Rabs_def2 in Hz. destruct (Rle_dec (-1) z); [apply F1; lra|apply F3; lra].
    - apply (dlim_glue _ (fun z => - z - 1 / 2) (fun z => z * z / 2)); [| |apply Hd|by apply Hq].
      + intros z Hz. destruct (Rle_dec (-1) z); [|done]. replace z with (-1) by lra. lra.
      + intros z Hz. by destruct (Rle_dec (-1) z). }
  apply (dlim_between _ (fun z => z * z / 2) _ _ (-1) 1); [lra| |by apply Hq]. intros z Hz. apply F1. lra.
Qed.
Lemma limited_opp d : limited (- d) = - limited d.
Proof.
  unfold limited. destruct (Rle_dec 1 d); [|destruct (Rle_dec d (-1))].
  - rewrite (Rmin_left 1 d), (Rmin_right 1 (- d)) by lra. rewrite Rmax_left, Rmax_right by lra. done.
  - rewrite (Rmin_right 1 d), (Rmin_left 1 (- d)) by lra. rewrite Rmax_right, Rmax_left by lra. lra.
  - rewrite !Rmin_right by lra. rewrite !Rmax_right by lra. done.
Qed.
Lemma quantile_loss_deriv tau y p :
  derivable_pt_lim (quantile_loss tau y) p ((if Rlt_dec y p then 1 - tau else tau) * limited (p - y)).
Proof.
  assert (Hc : forall c x, derivable_pt_lim (fun p => c * huber (y - p)) x (c * limited (x - y))).
  { intros c x. eapply dlim_val; [|apply dlim_scal; apply (dlim_comp (fun p => y - p) huber x (-1)); [apply (dlim_affine _ _ (-1) y); intros; lra|apply huber_deriv]].
    f_equal. replace (x - y) with (- (y - x)) by lra. rewrite limited_opp. lra. }
  destruct (Rlt_dec y p) as [Hl|Hl].
  - apply (dlim_gt _ (fun p => (1 - tau) * huber (y - p)) _ _ y); [done| |apply Hc]. intros z Hz. unfold quantile_loss. by destruct (Rlt_dec y z).
  - destruct (Req_dec p y) as [->|].
    + apply (dlim_glue _ (fun p => tau * huber (y - p)) (fun p => (1 - tau) * huber (y - p))).
      * intros z Hz. unfold quantile_loss. destruct (Rlt_dec y z); [lra|done].
      * intros z Hz. unfold quantile_loss. destruct (Rlt_dec y z); [done|]. replace z with y by lra. replace (y - y) with 0 by lra.
        unfold huber. rewrite Rabs_R0. destruct (Rle_dec 0 1); lra.
      * apply Hc.
      * eapply dlim_val; [|apply Hc]. replace (y - y) with 0 by lra. unfold limited. rewrite Rmin_right by lra. rewrite Rmax_right by lra. lra.
    + apply (dlim_lt _ (fun p => tau * huber (y - p)) _ _ y); [lra| |apply Hc]. intros z Hz. unfold quantile_loss. destruct (Rlt_dec y z); [lra|done].
Qed.

Lemma derivative_huber_limited y p : derivative_huber_loss y p 1 = limited (p - y).
Proof.
  unfold derivative_huber_loss, limited. destruct (decide (Rabs (y - p) <= 1)) as [H|H].
  - apply Rabs_le_between in H. rewrite Rmin_right by lra. rewrite Rmax_right by lra. done.
  - unfold Rabs in *. destruct (Rcase_abs (y - p)).
    + rewrite Rmin_left by lra. rewrite Rmax_right by lra. field. lra.
    + rewrite Rmin_right by lra. rewrite Rmax_left by lra. field. lra.
Qed.
Lemma huber_loss_huber y p : huber_loss y p 1 = huber (y - p).
Proof.
  unfold huber_loss, huber. destruct (decide (Rabs (y - p) <= 1)), (Rle_dec (Rabs (y - p)) 1); try lra.
  rewrite <- Rabs_mult. rewrite Rabs_right; [done|]. apply Rle_ge, Rle_0_sqr.
Qed.
Lemma frac_range n i : (i < n)%nat -> 0 < INR (i + 1) / INR n <= 1.
Proof.
  intros Hi. assert (0 < INR n) by (apply lt_0_INR; lia). split.
  - apply Rdiv_lt_0_compat; [apply lt_0_INR; lia|done].
  - apply (Rmult_le_reg_r (INR n)); [done|]. unfold Rdiv. rewrite Rmult_assoc, Rinv_l by lra. rewrite Rmult_1_r, Rmult_1_l. apply le_INR. lia.
Qed.
Lemma mid_range n i : (i < n)%nat -> 0 < INR (2 * i + 1) / INR (2 * n) < 1.
Proof.
  intros Hi. assert (0 < INR (2 * n)) by (apply lt_0_INR; lia). split.
  - apply Rdiv_lt_0_compat; [apply lt_0_INR; lia|done].
  - apply (Rmult_lt_reg_r (INR (2 * n))); [done|]. unfold Rdiv. rewrite Rmult_assoc, Rinv_l by lra. rewrite Rmult_1_r, Rmult_1_l. apply lt_INR. lia.
Qed.
Lemma quantile_weight_eq n i y p : (i < n)%nat -> quantile_weight n i y p = (if Rlt_dec y p then 1 - INR (i + 1) / INR n else INR (i + 1) / INR n) / INR n.
Proof.
  intros Hi. pose proof (frac_range n i Hi). unfold quantile_weight. f_equal. destruct (decide (y - p < 0)), (Rlt_dec y p); try lra. rewrite Rabs_left1; lra.
Qed.
Lemma midpoint_weight_eq n i y p : (i < n)%nat -> midpoint_weight n i y p = (if Rlt_dec y p then 1 - INR (2 * i + 1) / INR (2 * n) else INR (2 * i + 1) / INR (2 * n)) / INR n.
Proof.
  intros Hi. pose proof (mid_range n i Hi). unfold midpoint_weight. f_equal. destruct (decide (y - p < 0)), (Rlt_dec y p); try lra. rewrite Rabs_left1; lra.
Qed.

Lemma quantile_weights_run w n actions a y sm : length sm = (actions * n)%nat -> (a < actions)%nat ->
  exists vals, quantile_weights w n a y sm = Some vals /\ length vals = n /\ forall k, (k < n)%nat -> el vals k = w n k y (el sm (a * n + k)).
Proof.
  intros Hs Ha. unfold quantile_weights. assert (Hin : (a * n + n <= actions * n)%nat) by nia.
  rewrite (Pointwise_loop n n 0 _ (fun k _ => w n k y (el sm (a * n + k))) ltac:(lia)); [| |apply replicate_length].
  - eexists. split; [done|]. rewrite imap_length, replicate_length. split; [done|]. intros k Hk. rewrite el_imap by (by rewrite replicate_length).
    rewrite decide_True by lia. by rewrite Nat.sub_0_r.
  - intros k Hk l Hl. rewrite rd_el by lia. cbn [mbind option_bind]. by rewrite (Pointwise_wr n) by lia.
Qed.
Lemma quantile_row_run n actions from a y sm vals error : length sm = (actions * n)%nat -> (from + n <= actions * n)%nat -> (a < actions)%nat -> length vals = n -> length error = (actions * n)%nat ->
  exists error', quantile_row n from a y sm vals error = Some error' /\ length error' = (actions * n)%nat /\
    (forall k, (k < n)%nat -> el error' (a * n + k) = el vals k * limited (el sm (from + k) - y)) /\
    (forall q, (q < a * n)%nat \/ (a * n + n <= q)%nat -> el error' q = el error q).
Proof.
  intros Hs Hf Ha Hv He. unfold quantile_row. assert (Hin : (a * n + n <= actions * n)%nat) by nia.
  rewrite (Pointwise_loop (actions * n) n (a * n) _ (fun k _ => derivative_huber_loss y (el sm (from + k)) 1) Hin); [| |done].
  2: { intros k Hk l Hl. rewrite rd_el by lia. cbn [mbind option_bind]. by rewrite (Pointwise_wr (actions * n)) by lia. }
  cbn [mbind option_bind].
  rewrite (Pointwise_loop (actions * n) n (a * n) _ (fun k x => el vals k * x) Hin); [| |by rewrite imap_length].
  2: { intros k Hk l Hl. rewrite !rd_el by lia. cbn [mbind option_bind]. rewrite (Pointwise_wr (actions * n)) by (done || lia). f_equal. apply imap_ext_lt.
       intros q x Hq E. destruct (decide (q = a * n + k)%nat) as [->|]; [|done]. by rewrite (el_lookup _ _ _ E). }
  eexists. split; [done|]. rewrite !imap_length. split; [done|]. rewrite imap_imap. split.
  - intros k Hk. rewrite el_imap by lia. rewrite !decide_True by lia. replace (a * n + k - a * n)%nat with k by lia. by rewrite derivative_huber_limited.
  - intros q Hq. destruct (decide (q < length error)%nat).
    + rewrite el_imap by done. by rewrite !decide_False by lia.
    + rewrite !el_ge; [done|lia|rewrite imap_length; lia].
Qed.

(** *** C55 *)
(** the _opt variant: the error of quantile k of action_t is the derivative with respect to its prediction of the mean
    over the n quantiles of the quantile Huber losses at fractions (k+1)/n; the other actions' errors are left alone *)
Theorem C55_opt : forall n actions action_t y sm error,
  (action_t < actions)%nat -> length sm = (actions * n)%nat -> length error = (actions * n)%nat ->
  exists error', qr_loss_opt n action_t y sm error = Some error' /\ length error' = (actions * n)%nat /\
    (forall k, (k < n)%nat -> has_partial (fun sm => sumn n (fun i => quantile_loss (INR (i + 1) / INR n) y (el sm (action_t * n + i))) / INR n) sm (action_t * n + k) (el error' (action_t * n + k))) /\
    (forall i k, (i < actions)%nat -> (k < n)%nat -> i <> action_t -> el error' (i * n + k) = el error (i * n + k)).
Proof.
  intros n actions a y sm error Ha Hs He. unfold qr_loss_opt. assert (Hin : (a * n + n <= actions * n)%nat) by nia.
  destruct (quantile_weights_run quantile_weight n actions a y sm Hs Ha) as (vals & E & Lv & Hv). rewrite E. cbn [mbind option_bind].
  destruct (quantile_row_run n actions (a * n) a y sm vals error Hs Hin Ha Lv He) as (error' & E' & Le & H1 & H2). exists error'. split; [done|]. split; [done|]. split.
  - intros k Hk. rewrite H1 by done. rewrite Hv by done. unfold has_partial, Rdiv.
    rewrite quantile_weight_eq by done. set (c := if Rlt_dec y (el sm (a * n + k)) then _ else _).
    apply (dlim_ext _ (fun t => / INR n * sumn n (fun i => quantile_loss (INR (i + 1) / INR n) y (el (<[(a * n + k)%nat := t]> sm) (a * n + i))))); [intros; unfold Rdiv; lra|].
    replace (c / INR n * limited (el sm (a * n + k) - y)) with (/ INR n * sumn n (fun i => if decide (i = k) then c * limited (el sm (a * n + k) - y) else 0)).
    2: { rewrite (sumn_delta n k (fun _ => c * limited (el sm (a * n + k) - y))) by done. unfold Rdiv. lra. }
    apply dlim_scal. apply (dlim_sumn n (fun i t => quantile_loss (INR (i + 1) / INR n) y (el (<[(a * n + k)%nat := t]> sm) (a * n + i)))). intros i Hi.
    destruct (decide (i = k)) as [->|Hne].
    + apply (dlim_ext _ (quantile_loss (INR (k + 1) / INR n) y)); [intros; by rewrite el_upd_eq by lia|]. apply quantile_loss_deriv.
    + eapply dlim_ext; [|apply (dlim_const (quantile_loss (INR (i + 1) / INR n) y (el sm (a * n + i))))]. intros t. cbn beta. by rewrite el_upd_ne by lia.
  - intros i k Hi Hk Hne. apply H2. destruct (decide (i < a)%nat); [left|right]; nia.
Qed.
(** the _with_error variant: the same with midpoints (2k+1)/(2n) and times the weight; the priority is the loss itself,
    and is not negative *)
Theorem C55_with_error : forall n actions action_t y weight sm error,
  (action_t < actions)%nat -> (0 < n)%nat -> length sm = (actions * n)%nat -> length error = (actions * n)%nat ->
  let loss := fun sm => sumn n (fun i => quantile_loss (INR (2 * i + 1) / INR (2 * n)) y (el sm (action_t * n + i))) / INR n in
  exists error', qr_loss_opt_with_error n action_t y weight 0 sm error = Some (error', loss sm) /\ length error' = (actions * n)%nat /\
    0 <= loss sm /\
    (forall k, (k < n)%nat -> has_partial (fun sm => weight * loss sm) sm (action_t * n + k) (el error' (action_t * n + k))) /\
    (forall i k, (i < actions)%nat -> (k < n)%nat -> i <> action_t -> el error' (i * n + k) = el error (i * n + k)).
Proof.
  intros n actions a y weight sm error Ha Hn Hs He loss. unfold qr_loss_opt_with_error. assert (Hin : (a * n + n <= actions * n)%nat) by nia.
  assert (HnR : 0 < INR n) by (apply lt_0_INR; lia).
  destruct (quantile_weights_run midpoint_weight n actions a y sm Hs Ha) as (vals & E & Lv & Hv). rewrite E. cbn [mbind option_bind].
  destruct (quantile_row_run n actions (a * n) a y sm vals error Hs Hin Ha Lv He) as (error' & E' & Le & H1 & H2). rewrite E'. cbn [mbind option_bind].
  rewrite (Pointwise_loop (actions * n) n (a * n) _ (fun k x => x * weight) Hin); [| |done].
  2: { intros k Hk l Hl. rewrite !rd_el by lia. cbn [mbind option_bind]. rewrite (Pointwise_wr (actions * n)) by (done || lia). f_equal. apply imap_ext_lt.
       intros q x Hq E2. destruct (decide (q = a * n + k)%nat) as [->|]; [|done]. by rewrite (el_lookup _ _ _ E2). }
  cbn [mbind option_bind].
  rewrite (for_loop_sum n _ (fun i => quantile_loss (INR (2 * i + 1) / INR (2 * n)) y (el sm (a * n + i)) * / INR n)).
  2: { intros i Hi. rewrite !rd_el by lia. cbn [mbind option_bind]. rewrite Hv by done. rewrite midpoint_weight_eq by done. rewrite huber_loss_huber. f_equal. unfold quantile_loss, Rdiv. lra. }
  cbn [mbind option_bind]. rewrite Rplus_0_l. rewrite sumn_scal_r. fold (Rdiv (sumn n (fun i => quantile_loss (INR (2 * i + 1) / INR (2 * n)) y (el sm (a * n + i)))) (INR n)). fold (loss sm).
  assert (Hpos : 0 <= loss sm).
  { unfold loss. apply Rmult_le_pos; [|left; by apply Rinv_0_lt_compat]. apply sumn_nonneg. intros i Hi. pose proof (mid_range n i Hi). unfold quantile_loss. apply Rmult_le_pos.
    - destruct (Rlt_dec _ _); lra.
    - unfold huber. destruct (Rle_dec _ _); [|lra]. pose proof (Rle_0_sqr (y - el sm (a * n + i))). unfold Rsqr in *. lra. }
  eexists. split; [rewrite (Rabs_right (loss sm)) by lra; done|]. rewrite imap_length. split; [done|]. split; [done|]. split.
  - intros k Hk. rewrite el_imap by lia. rewrite decide_True by lia. rewrite H1 by done. rewrite Hv by done. unfold has_partial.
    rewrite midpoint_weight_eq by done. set (c := if Rlt_dec y (el sm (a * n + k)) then _ else _). unfold loss.
    apply (dlim_ext _ (fun t => weight * / INR n * sumn n (fun i => quantile_loss (INR (2 * i + 1) / INR (2 * n)) y (el (<[(a * n + k)%nat := t]> sm) (a * n + i))))); [intros; unfold Rdiv; lra|].
    replace (c / INR n * limited (el sm (a * n + k) - y) * weight) with (weight * / INR n * sumn n (fun i => if decide (i = k) then c * limited (el sm (a * n + k) - y) else 0)).
    2: { rewrite (sumn_delta n k (fun _ => c * limited (el sm (a * n + k) - y))) by done. unfold Rdiv. lra. }
    apply dlim_scal. apply (dlim_sumn n (fun i t => quantile_loss (INR (2 * i + 1) / INR (2 * n)) y (el (<[(a * n + k)%nat := t]> sm) (a * n + i)))). intros i Hi.
    destruct (decide (i = k)) as [->|Hne].
    + apply (dlim_ext _ (quantile_loss (INR (2 * k + 1) / INR (2 * n)) y)); [intros; by rewrite el_upd_eq by lia|]. apply quantile_loss_deriv.
    + eapply dlim_ext; [|apply (dlim_const (quantile_loss (INR (2 * i + 1) / INR (2 * n)) y (el sm (a * n + i))))]. intros t. cbn beta. by rewrite el_upd_ne by lia.
  - intros i k Hi Hk Hne. assert (Hq : (i * n + k < a * n)%nat \/ (a * n + n <= i * n + k)%nat) by (destruct (decide (i < a)%nat); [left|right]; nia).
    rewrite el_imap by (rewrite Le; nia). rewrite decide_False by lia. by apply H2.
Qed.

(** the plain variant compares the target with the predictions of the NEXT action: for the last action it reads past the
    end of the array *)
Theorem C55_plain_last_refuted : forall n actions y sm error,
  (0 < n)%nat -> length sm = (S actions * n)%nat -> qr_loss n actions y sm error = None.
Proof.
  intros n actions y sm error Hn Hs. unfold qr_loss. destruct (quantile_weights _ _ _ _ _) as [vals|]; cbn [mbind option_bind]; [|done].
  unfold quantile_row. destruct n as [|n]; [lia|]. cbn [for_loop].
  assert (E : rd sm (actions * S n + S n + 0) = None) by (apply lookup_ge_None_2; lia). by rewrite E.
Qed.
(** ... and for any other action the slope is taken at the next action's predictions; the action's own predictions only
    choose the weights *)
Theorem C55_plain_refuted : forall n actions action_t y sm error,
  (S action_t < actions)%nat -> length sm = (actions * n)%nat -> length error = (actions * n)%nat ->
  exists error', qr_loss n action_t y sm error = Some error' /\
    forall k, (k < n)%nat -> el error' (action_t * n + k) = quantile_weight n k y (el sm (action_t * n + k)) * limited (el sm (S action_t * n + k) - y).
Proof.
  intros n actions a y sm error Ha Hs He. unfold qr_loss.
  destruct (quantile_weights_run quantile_weight n actions a y sm Hs ltac:(lia)) as (vals & E & Lv & Hv). rewrite E. cbn [mbind option_bind].
  destruct (quantile_row_run n actions (a * n + n) a y sm vals error Hs ltac:(nia) ltac:(lia) Lv He) as (error' & E' & Le & H1 & H2). exists error'. split; [done|].
  intros k Hk. rewrite H1 by done. rewrite Hv by done. by replace (a * n + n + k)%nat with (S a * n + k)%nat by lia.
Qed.
(** so the plain and the _opt variant disagree on the same values: here 0 and -1 *)
Theorem C55_variants_refuted : exists e e', qr_loss 1 0 1 [0; 1] [0; 0] = Some e /\ qr_loss_opt 1 0 1 [0; 1] [0; 0] = Some e' /\ el e 0 = 0 /\ el e' 0 = -1.
Proof.
  destruct (C55_plain_refuted 1 2 0 1 [0; 1] [0; 0] ltac:(lia) eq_refl eq_refl) as (e & E & H).
  destruct (C55_opt 1 2 0 1 [0; 1] [0; 0] ltac:(lia) eq_refl eq_refl) as (e' & E' & _ & H' & _). exists e, e'. do 2 (split; [done|]). split.
  - specialize (H 0%nat ltac:(lia)). cbn in H. rewrite H. replace (1 - 1) with 0 by lra. unfold limited. rewrite Rmin_right by lra. rewrite Rmax_right by lra. lra.
  - specialize (H' 0%nat ltac:(lia)). cbn in H'. apply (dlim_unique _ _ _ _ H').
    apply (dlim_ext _ (quantile_loss 1 1)); [intros t; cbn; replace (1 / 1) with 1 by lra; unfold sumn; cbn; lra|].
    cbn. pose proof (quantile_loss_deriv 1 1 0) as D. destruct (Rlt_dec 1 0); [lra|]. eapply dlim_val; [|exact D]. unfold limited. rewrite Rmin_right by lra. rewrite Rmax_left by lra. lra.
Qed.
(** a case: two actions, two quantiles, target 0, action 1 predicting 2 (too high) and -3 (too low) *)
Example C55_case : exists e, qr_loss_opt 2 1 0 [5; 6; 2; -3] [7; 7; 7; 7] = Some e /\ el e 0 = 7 /\ el e 2 = 1 / 4 /\ el e 3 = - (1 / 2).
Proof.
  unfold qr_loss_opt. destruct (quantile_weights_run quantile_weight 2 2 1 0 [5; 6; 2; -3] eq_refl ltac:(lia)) as (vals & E & Lv & Hv). rewrite E. cbn [mbind option_bind].
  destruct (quantile_row_run 2 2 2 1 0 [5; 6; 2; -3] vals [7; 7; 7; 7] eq_refl ltac:(lia) ltac:(lia) Lv eq_refl) as (e & E' & _ & H1 & H2). exists e. split; [exact E'|].
  split; [rewrite H2 by lia; done|]. split.
  - specialize (H1 0%nat ltac:(lia)). cbn in H1. rewrite H1. rewrite Hv by lia. rewrite quantile_weight_eq by lia. cbn. destruct (Rlt_dec 0 2); [|lra].
    unfold limited. rewrite Rmin_left by lra. rewrite Rmax_right by lra. lra.
  - specialize (H1 1%nat ltac:(lia)). cbn in H1. rewrite H1. rewrite Hv by lia. rewrite quantile_weight_eq by lia. cbn. destruct (Rlt_dec 0 (-3)); [lra|].
    unfold limited. rewrite Rmin_right by lra. rewrite Rmax_left by lra. lra.
Qed.

Print Assumptions C55_opt.
Print Assumptions C55_with_error.
Print Assumptions C55_plain_last_refuted.
