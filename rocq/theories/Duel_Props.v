(** C38: the dueling head combines V + A - mean A and propagates its errors.  C39: the distributional target.
    C54: the two variants of the categorical loss. *)
From Coq Require Import Reals Lra Psatz.
From Coq.Floats Require Import SpecFloat.
From Verif Require Import NumLib NumLib2 NumLib3 BaseLemmas RealSum Deriv Grad.
From Verif Require Import Duel_Model Duel_Spec Duel_Proofs Duel_Back Duel_Proj.
Open Scope R_scope.

Lemma comb_logit n actions A V i k : (0 < actions)%nat -> comb n actions A V (replicate n 0) i k = logit n actions V A i k.
Proof. intros Ha. unfold comb, logit, mean_advantage. rewrite el_replicate. unfold Rdiv. lra. Qed.
Lemma prob_pos n actions V A i k : (0 < n)%nat -> 0 < prob n actions V A i k.
Proof. intros Hn. apply Rdiv_lt_0_compat; [apply exp_pos|]. apply sumn_pos; [done|]. intros. apply exp_pos. Qed.
Lemma prob_sum n actions V A i : (0 < n)%nat -> sumn n (prob n actions V A i) = 1.
Proof.
  intros Hn. unfold prob, Rdiv. rewrite sumn_scal_r. apply Rinv_r. apply Rgt_not_eq, sumn_pos; [done|]. intros. apply exp_pos.
Qed.
Lemma comb_mean n actions A V mean k : (0 < actions)%nat -> sumn actions (fun i => comb n actions A V mean i k) / INR actions = el V k + el mean k / INR actions.
Proof.
  intros Ha. assert (INR actions <> 0) by (apply not_0_INR; lia). unfold comb. rewrite !sumn_plus, !sumn_const. field. done.
Qed.

(** ** C38 *)
(** from a reset network: the combined value of atom k of action i is V_k + A_ik - mean over the actions of A_k; its mean
    over the actions is V_k; each action's row of softmax_layer is the softmax of its combined values, a probability
    distribution *)
Theorem C38_aggregation : forall n actions A V add sm,
  (0 < n)%nat -> (0 < actions)%nat -> length A = (actions * n)%nat -> length V = n -> length add = (actions * n)%nat -> length sm = (actions * n)%nat ->
  exists mean' add' sm', distributions n actions A V (replicate n 0, add, sm) = Some (mean', add', sm') /\
    length add' = (actions * n)%nat /\ length sm' = (actions * n)%nat /\
    (forall i k, (i < actions)%nat -> (k < n)%nat -> el add' (i * n + k) = el V k + el A (i * n + k) - sumn actions (fun j => el A (j * n + k)) / INR actions) /\
    (forall k, (k < n)%nat -> sumn actions (fun i => el add' (i * n + k)) / INR actions = el V k) /\
    (forall i, (i < actions)%nat -> (forall k, (k < n)%nat -> 0 < el sm' (i * n + k)) /\ sumn n (fun k => el sm' (i * n + k)) = 1) /\
    (forall i k, (i < actions)%nat -> (k < n)%nat -> el sm' (i * n + k) = exp (el add' (i * n + k)) / sumn n (fun k' => exp (el add' (i * n + k')))).
Proof.
  intros n actions A V add sm Hn Ha HA HV Hadd Hsm.
  destruct (distributions_run n actions A V (replicate n 0) add sm HA HV (replicate_length n _) Hadd Hsm) as (mean' & add' & sm' & E & L1 & L2 & L3 & H1 & H2).
  exists mean', add', sm'. split; [done|]. split; [done|]. split; [done|].
  assert (H1' : forall i k, (i < actions)%nat -> (k < n)%nat -> el add' (i * n + k) = logit n actions V A i k) by (intros; rewrite H1 by done; by apply comb_logit).
  assert (H2' : forall i k, (i < actions)%nat -> (k < n)%nat -> el sm' (i * n + k) = prob n actions V A i k).
  { intros i k Hi Hk. rewrite H2 by done. rewrite comb_logit by done. unfold prob. f_equal. apply sumn_ext. intros. by rewrite comb_logit. }
  split; [|split; [|split]].
  - intros. by rewrite H1'.
  - intros k Hk. erewrite (sumn_ext _ _ (fun i => comb n actions A V (replicate n 0) i k)) by (intros; by apply H1). rewrite comb_mean by done. rewrite el_replicate. lra.
  - intros i Hi. split.
    + intros k Hk. rewrite H2' by done. by apply prob_pos.
    + erewrite sumn_ext by (intros; by apply H2'). by apply prob_sum.
  - intros i k Hi Hk. rewrite H2', H1' by done. unfold prob. f_equal. apply sumn_ext. intros. by rewrite H1'.
Qed.
Example C38_aggregation_case : (0 < 2)%nat /\ (0 < 2)%nat /\ length [1;2;3;4] = (2 * 2)%nat /\ length [5;6] = 2%nat.
Proof. repeat split; cbn; lia. Qed.

(** without the reset the combined values are off: their mean is V_k plus what action_mean_layer held, divided by the
    number of actions *)
Theorem C38_needs_reset : forall n actions A V mean add sm,
  (0 < actions)%nat -> length A = (actions * n)%nat -> length V = n -> length mean = n -> length add = (actions * n)%nat -> length sm = (actions * n)%nat ->
  exists mean' add' sm', distributions n actions A V (mean, add, sm) = Some (mean', add', sm') /\
    (forall k, (k < n)%nat -> sumn actions (fun i => el add' (i * n + k)) / INR actions = el V k + el mean k / INR actions).
Proof.
  intros n actions A V mean add sm Ha HA HV Hm Hadd Hsm.
  destruct (distributions_run n actions A V mean add sm HA HV Hm Hadd Hsm) as (mean' & add' & sm' & E & L1 & L2 & L3 & H1 & H2).
  exists mean', add', sm'. split; [done|]. intros k Hk.
  erewrite (sumn_ext _ _ (fun i => comb n actions A V mean i k)) by (intros; by apply H1). by apply comb_mean.
Qed.

(** the quantile network: the same combination, and softmax_layer holds the combined values themselves *)
Theorem C38_quantiles : forall n actions A V add sm,
  (0 < actions)%nat -> length A = (actions * n)%nat -> length V = n -> length add = (actions * n)%nat -> length sm = (actions * n)%nat ->
  exists mean' add', quantiles n actions A V (replicate n 0, add, sm) = Some (mean', add', add') /\
    (forall i k, (i < actions)%nat -> (k < n)%nat -> el add' (i * n + k) = el V k + el A (i * n + k) - sumn actions (fun j => el A (j * n + k)) / INR actions) /\
    (forall k, (k < n)%nat -> sumn actions (fun i => el add' (i * n + k)) / INR actions = el V k).
Proof.
  intros n actions A V add sm Ha HA HV Hadd Hsm.
  destruct (quantiles_run n actions A V (replicate n 0) add sm HA HV (replicate_length n _) Hadd Hsm) as (mean' & add' & E & L & H1).
  exists mean', add'. split; [done|]. split.
  - intros i k Hi Hk. rewrite H1 by done. by rewrite comb_logit.
  - intros k Hk. erewrite (sumn_ext _ _ (fun i => comb n actions A V (replicate n 0) i k)) by (intros; by apply H1). rewrite comb_mean by done. rewrite el_replicate. lra.
Qed.

(** the q function of an action, from a reset array: the mean of its distribution (quantile network: the mean of its
    quantiles) *)
Theorem C38_q_functions : forall n actions sm support,
  length sm = (actions * n)%nat -> length support = n ->
  exists q, q_functions n actions sm support (replicate actions 0) = Some q /\ length q = actions /\
    forall i, (i < actions)%nat -> el q i = sumn n (fun k => el sm (i * n + k) * el support k).
Proof.
  intros n actions sm support Hs Hz. rewrite q_functions_run by (done || apply replicate_length). eexists. split; [done|].
  rewrite imap_length, replicate_length. split; [done|]. intros i Hi. rewrite el_imap by (by rewrite replicate_length). rewrite el_replicate. lra.
Qed.
Theorem C38_q_functions_qr : forall n actions sm, (0 < n)%nat -> length sm = (actions * n)%nat ->
  exists q, q_functions_qr n actions sm (replicate actions 0) = Some q /\ length q = actions /\
    forall i, (i < actions)%nat -> el q i = sumn n (fun k => el sm (i * n + k)) / INR n.
Proof.
  intros n actions sm Hn Hs. rewrite q_functions_qr_run by (done || apply replicate_length). eexists. split; [done|].
  rewrite imap_length, replicate_length. split; [done|]. intros i Hi. rewrite el_imap by (by rewrite replicate_length). rewrite el_replicate.
  unfold Rdiv. rewrite sumn_scal_r. lra.
Qed.

Lemma back_slope n actions V A sm e i k : (i < actions)%nat -> (k < n)%nat ->
  (forall i k, (i < actions)%nat -> (k < n)%nat -> el sm (i * n + k) = prob n actions V A i k) -> back n sm e i k = slope n actions e V A i k.
Proof. intros Hi Hk H. unfold back, slope. rewrite H by done. do 2 f_equal. apply sumn_ext. intros. by rewrite H. Qed.

(** the error handed to the value stream is the derivative of the loss with respect to its outputs *)
Theorem C38_value_error : forall n actions A V sm e d ve,
  length V = n -> length sm = (actions * n)%nat -> length e = (actions * n)%nat ->
  d = replicate (actions * n) 0 -> ve = replicate n 0 ->
  (forall i k, (i < actions)%nat -> (k < n)%nat -> el sm (i * n + k) = prob n actions V A i k) ->
  exists d' ve', value_error n actions sm e (d, ve) = Some (d', ve') /\ length ve' = n /\
    forall k, (k < n)%nat -> has_partial (fun V => through_probabilities n actions e V A) V k (el ve' k).
Proof.
  intros n actions A V sm e d ve HV Hs He -> -> Hp.
  destruct (value_error_run n actions sm e (replicate (actions * n) 0) (replicate n 0) Hs He (replicate_length _ _) (replicate_length _ _)) as (d' & ve' & E & L1 & L2 & H1 & H2).
  exists d', ve'. split; [done|]. split; [done|]. intros k Hk. rewrite H2 by done. rewrite el_replicate, Rplus_0_l.
  erewrite sumn_ext; [by apply slope_V|]. intros i Hi. cbn beta. rewrite el_replicate, Rplus_0_l. by apply (back_slope n actions V A).
Qed.

(** the error handed to the advantage stream is not: whatever the numbers of atoms and actions (two or more), if only
    the first atom of action 0 has an error, every entry handed to the advantage stream is 0, while the derivative of the
    loss with respect to the first advantage is positive *)
Theorem C38_advantage_error_refuted : forall n actions A V sm,
  (2 <= n)%nat -> (2 <= actions)%nat -> length A = (actions * n)%nat -> length V = n -> length sm = (actions * n)%nat ->
  (forall i k, (i < actions)%nat -> (k < n)%nat -> el sm (i * n + k) = prob n actions V A i k) ->
  let e := <[0%nat := 1]> (replicate (actions * n) 0) in
  exists d' ve' ae', value_error n actions sm e (replicate (actions * n) 0, replicate n 0) = Some (d', ve') /\
    advantage_error n actions d' (replicate (actions * n) 0) = Some ae' /\
    (forall i k, (i < actions)%nat -> (k < n)%nat -> el ae' (i * n + k) = 0) /\
    exists g, 0 < g /\ has_partial (fun A => through_probabilities n actions e V A) A 0 g.
Proof.
  intros n actions A V sm Hn Ha HA HV Hs Hp e. assert (Hpos : (0 < actions * n)%nat) by nia.
  assert (Hel : forall q, el e q = if decide (q = 0)%nat then 1 else 0). { intros q. unfold e. rewrite el_upd by (by rewrite replicate_length). by rewrite el_replicate. }
  assert (He : length e = (actions * n)%nat) by (unfold e; by rewrite insert_length, replicate_length).
  destruct (value_error_run n actions sm e (replicate (actions * n) 0) (replicate n 0) Hs He (replicate_length _ _) (replicate_length _ _)) as (d' & ve' & E & L1 & L2 & H1 & H2).
  destruct actions as [|actions]; [lia|].
  destruct (advantage_error_run n actions d' (replicate (S actions * n) 0) L1 (replicate_length _ _)) as (ae' & E2 & L3 & H3).
  assert (Hz : forall i k, (0 < i < S actions)%nat -> (k < n)%nat -> slope n (S actions) e V A i k = 0).
  { intros i k Hi Hk. unfold slope. rewrite Hel, decide_False by nia. rewrite sumn_0; [lra|]. intros k' Hk'. rewrite Hel, decide_False by nia. lra. }
  exists d', ve', ae'. split; [done|]. split; [done|]. split.
  - intros i k Hi Hk. rewrite H3 by done. rewrite H1 by lia. rewrite el_replicate, Rplus_0_l. rewrite (back_slope n (S actions) V A) by (done || lia). rewrite Hz by lia. lra.
  - assert (H0n : (0 < n)%nat) by lia. pose proof (slope_A n (S actions) e V A 0 0 HA ltac:(lia) H0n) as HG. rewrite Nat.mul_0_l, Nat.add_0_l in HG.
    eexists. split; [|exact HG].
    rewrite (sumn_single (S actions) 0); [|lia|]. 2: { intros i Hi Hne. apply Hz; lia. }
    assert (Hsl : 0 < slope n (S actions) e V A 0 0).
    { unfold slope. rewrite Nat.mul_0_l, Nat.add_0_l. rewrite (sumn_single n 0); [|done|]. 2: { intros k Hk Hne. rewrite Hel, decide_False by lia. lra. }
      rewrite Nat.add_0_l, Hel, decide_True by done. pose proof (prob_pos n (S actions) V A 0 0 H0n). apply Rmult_lt_0_compat; [done|].
      pose proof (prob_sum n (S actions) V A 0 H0n) as Hsum. destruct n as [|[|n]]; [lia|lia|]. rewrite sumn_S_l in Hsum.
      assert (0 < sumn (S n) (fun i => prob (S (S n)) (S actions) V A 0 (S i))) by (apply sumn_pos; [lia|]; intros; apply prob_pos; lia). lra. }
    assert (Hge : 2 <= INR (S actions)). { replace 2 with (INR 2) by (cbn; lra). apply le_INR. done. }
    assert (/ INR (S actions) <= / 2) by (apply Rinv_le_contravar; lra). unfold Rdiv. nra.
Qed.
(** more precisely: the advantage stream only ever sees the error of the last action, and scaled by the number of atoms
    instead of the number of actions *)
Theorem C38_advantage_error_actual : forall n actions d,
  length d = (S actions * n)%nat ->
  exists ae', advantage_error n (S actions) d (replicate (S actions * n) 0) = Some ae' /\
    forall i k, (i < S actions)%nat -> (k < n)%nat ->
      el ae' (i * n + k) = (if decide (i = actions) then INR (n - 1) / INR n else - 1 / INR n) * el d (actions * n + k).
Proof.
  intros n actions d Hd. destruct (advantage_error_run n actions d (replicate (S actions * n) 0) Hd (replicate_length _ _)) as (ae' & E & _ & H).
  by exists ae'.
Qed.

(** quantile network, value stream *)
Theorem C38_qr_value_error : forall n actions A V e,
  length V = n -> length e = (actions * n)%nat ->
  exists ve', value_error_qr n actions e (replicate n 0) = Some ve' /\ length ve' = n /\
    forall k, (k < n)%nat -> has_partial (fun V => through_logits n actions e V A) V k (el ve' k).
Proof.
  intros n actions A V e HV He. rewrite value_error_qr_run by (done || apply replicate_length). eexists. split; [done|].
  rewrite imap_length, replicate_length. split; [done|]. intros k Hk. rewrite el_imap by (by rewrite replicate_length). rewrite el_replicate, Rplus_0_l. by apply logits_V.
Qed.
(** quantile network, advantage stream: the derivative when there are as many atoms as actions.  Missing: any other
    number of atoms, where it is false ([C38_qr_advantage_error_refuted]). *)
Theorem C38_qr_advantage_error_partial : forall n A V e,
  (0 < n)%nat -> length A = (n * n)%nat -> length V = n -> length e = (n * n)%nat ->
  exists ae', advantage_error_qr n n e (replicate (n * n) 0) = Some ae' /\
    forall i k, (i < n)%nat -> (k < n)%nat -> has_partial (fun A => through_logits n n e V A) A (i * n + k) (el ae' (i * n + k)).
Proof.
  intros n A V e Hn HA HV He. destruct (advantage_error_qr_run n n e (replicate (n * n) 0) He (replicate_length _ _)) as (ae' & E & L & H).
  exists ae'. split; [done|]. intros i k Hi Hk. rewrite H by done. rewrite el_replicate, Rplus_0_l. eapply dlim_val; [|by apply logits_A]. unfold Rdiv. lra.
Qed.
(** ... and never otherwise: with a different number of atoms, no entry of an atom with a non-zero total error is the
    derivative *)
Theorem C38_qr_advantage_error_refuted : forall n actions A V e,
  (0 < n)%nat -> (0 < actions)%nat -> n <> actions -> length A = (actions * n)%nat -> length V = n -> length e = (actions * n)%nat ->
  exists ae', advantage_error_qr n actions e (replicate (actions * n) 0) = Some ae' /\
    forall i k, (i < actions)%nat -> (k < n)%nat -> sumn actions (fun j => el e (j * n + k)) <> 0 ->
      ~ has_partial (fun A => through_logits n actions e V A) A (i * n + k) (el ae' (i * n + k)).
Proof.
  intros n actions A V e Hn Ha Hne HA HV He. destruct (advantage_error_qr_run n actions e (replicate (actions * n) 0) He (replicate_length _ _)) as (ae' & E & L & H).
  exists ae'. split; [done|]. intros i k Hi Hk Hs Hd. rewrite H in Hd by done. rewrite el_replicate, Rplus_0_l in Hd.
  pose proof (dlim_unique _ _ _ _ Hd (logits_A n actions e V A i k HA Hi Hk)) as Heq.
  assert (Hn0 : INR n <> 0) by (apply not_0_INR; lia). assert (Ha0 : INR actions <> 0) by (apply not_0_INR; lia).
  assert (Hq : 1 / INR n = / INR actions). { apply (Rmult_eq_reg_r (sumn actions (fun j => el e (j * n + k)))); [|done]. unfold Rdiv in *. lra. }
  apply Hne. apply INR_eq. unfold Rdiv in Hq. rewrite Rmult_1_l in Hq. apply (f_equal Rinv) in Hq. by rewrite !Rinv_inv in Hq.
Qed.
Example C38_qr_case : sumn 2 (fun j => el [1;0;0;0;0;0] (j * 3 + 0)) <> 0 /\ 3%nat <> 2%nat.
Proof. cbn. split; [lra|lia]. Qed.

(** ** C39 *)
(** the projection, in exact arithmetic: it stays inside its arrays; atom j receives, from each atom, the mass of that
    atom times [1 - |place - z_j| / spacing] limited to [0,1]; masses are not negative; the total mass and the mean are
    those of the clipped target *)
Theorem C39_projection : forall n nonterminal reward lambda vmin vmax p z,
  (2 <= n)%nat -> vmin < vmax -> length p = n -> spacing reals n vmin vmax = Some z ->
  exists m, projection reals n nonterminal reward lambda vmin vmax z (atoms reals n vmin vmax z) p = Some m /\ length m = n /\
    (forall j, (j < n)%nat -> el m j = projected n vmin vmax reward lambda nonterminal p j) /\
    ((forall i, (i < n)%nat -> 0 <= el p i) -> forall j, (j < n)%nat -> 0 <= el m j) /\
    sumn n (el m) = (if nonterminal then sumn n (el p) else 1) /\
    sumn n (fun j => el m j * atom n vmin vmax j) =
      (if nonterminal then sumn n (fun i => el p i * clipped vmin vmax (reward + lambda * atom n vmin vmax i)) else clipped vmin vmax reward).
Proof.
  intros n nonterminal reward lambda vmin vmax p z Hn Hv Hp Hz.
  assert (Hn1 : INR (n - 1) <> 0) by (apply not_0_INR; lia). assert (Hn0 : INR n <> 0) by (apply not_0_INR; lia).
  unfold spacing in Hz. cbn in Hz. rewrite decide_False in Hz by done. injection Hz as <-.
  destruct (projection_run n nonterminal reward lambda vmin vmax p Hn Hv ltac:(lia)) as (m & E & L & H). exists m. split; [done|]. split; [done|]. split; [done|]. split; [|split].
  - intros Hpos j Hj. rewrite H by done. apply projected_nonneg; [done|]. intros _. done.
  - rewrite (sumn_ext _ _ _ H). rewrite projected_total by done. destruct nonterminal; [done|]. transitivity (sumn n (fun _ => 1 / INR n)); [done|]. rewrite sumn_const. field. done.
  - rewrite (sumn_ext _ _ (fun j => projected n vmin vmax reward lambda nonterminal p j * atom n vmin vmax j)) by (intros; by rewrite H). rewrite projected_mean by done.
    destruct nonterminal; [done|]. transitivity (sumn n (fun _ => 1 / INR n * clipped vmin vmax reward)); [done|]. rewrite sumn_const. field. done.
Qed.
Example C39_projection_case : (2 <= 3)%nat /\ -1 < 1 /\ length [1/2; 1/4; 1/4] = 3%nat /\ spacing reals 3 (-1) 1 = Some ((1 - -1) / INR 2).
Proof. split; [lia|]. split; [lra|]. split; [done|]. unfold spacing. cbn. rewrite decide_False by lra. done. Qed.

(** a support with v_min = v_max passes the constructor's check (only v_min > v_max is refused), and its atoms are 0
    apart: the projection then divides by zero *)
Theorem C39_single_value_refuted : forall n nonterminal reward lambda v p,
  (2 <= n)%nat -> spacing reals n v v = Some 0 /\
  projection reals n nonterminal reward lambda v v 0 (atoms reals n v v 0) p = None.
Proof.
  intros n nonterminal reward lambda v p Hn. split.
  - unfold spacing. cbn. rewrite decide_False by (apply not_0_INR; lia). f_equal. unfold Rdiv. lra.
  - unfold projection. destruct n as [|n]; [lia|]. cbn [for_loop]. destruct (target _ _ _ _ _ _ _ _) as [t|]; cbn [mbind option_bind]; [|done].
    unfold split_atom. cbn [o_div reals]. by rewrite decide_True.
Qed.

(** in IEEE single precision the projection does leave its array: with 62 atoms on [-1,1], the spacing is rounded down
    and the place of v_max is rounded up to just above 61, so that atom 62 of 62 is written.  Any distribution, with or
    without a next state. *)
Definition f32 (m : Z) : spec_float := binary_normalize 24 128 m 0 false.
Definition half32 : spec_float := binary_normalize 24 128 1 (-1) false.
Lemma split_atom_outside {F} (O : arith F) n nonterminal vmin z p i tz (m : list F) b l :
  o_div O (o_sub O tz vmin) z = Some b -> o_int O b = Some l -> o_eq O b (o_nat O l) = false -> (length m <= l + 1)%nat ->
  split_atom O n nonterminal vmin z p i tz m = None.
Proof.
  intros H1 H2 H3 H4. unfold split_atom. rewrite H1. cbn [mbind option_bind]. rewrite H2. cbn [mbind option_bind]. rewrite H3.
  assert (Hout : forall m' v, length m' = length m -> add_at O m' (l + 1)%nat v = None).
  { intros m' v Hm. unfold add_at, rd. rewrite lookup_ge_None_2 by lia. done. }
  assert (Hin : forall v m', add_at O m l v = Some m' -> length m' = length m).
  { intros v m'. unfold add_at. destruct (rd m l); cbn [mbind option_bind]; [|done]. intros Hw. unfold wr in Hw. destruct (decide _); [|done]. injection Hw as <-. by rewrite insert_length. }
  destruct nonterminal.
  - destruct (rd p i); cbn [mbind option_bind]; [|done]. destruct (add_at O m l _) eqn:E; cbn [mbind option_bind]; [|done]. apply Hout. by eapply Hin.
  - destruct (o_div O (o_sub O (o_nat O (l + 1)) b) (o_nat O n)); cbn [mbind option_bind]; [|done]. destruct (add_at O m l _) eqn:E; cbn [mbind option_bind]; [|done].
    destruct (o_div O (o_sub O b (o_nat O l)) (o_nat O n)); cbn [mbind option_bind]; [|done]. apply Hout. by eapply Hin.
Qed.
Theorem C39_float_refuted : forall nonterminal p,
  exists z, spacing float32 62 (f32 (-1)) (f32 1) = Some z /\
    projection float32 62 nonterminal (f32 2) half32 (f32 (-1)) (f32 1) z (atoms float32 62 (f32 (-1)) (f32 1) z) p = None.
Proof.
  intros nonterminal p. eexists. split; [vm_compute; reflexivity|]. match goal with |- projection _ _ _ _ _ _ _ ?z _ _ = _ => set (z0 := z) end.
  assert (E : target float32 nonterminal (f32 2) half32 (f32 (-1)) (f32 1) (atoms float32 62 (f32 (-1)) (f32 1) z0) 0 = Some (f32 1)) by (destruct nonterminal; vm_compute; reflexivity).
  unfold projection. change (for_loop 62) with (@for_loop (list spec_float) (S 61)). cbn [for_loop]. rewrite E. cbn [mbind option_bind].
  rewrite (split_atom_outside float32 62 nonterminal (f32 (-1)) z0 p 0 (f32 1) _ (S754_finite false 15990785 (-18)) 61); [done|vm_compute; reflexivity|vm_compute; reflexivity|vm_compute; reflexivity|].
  rewrite replicate_length. lia.
Qed.

(** ** the loss *)
Lemma evaluate_reset n actions vmin vmax V A : (2 <= n)%nat -> (0 < actions)%nat -> length A = (actions * n)%nat -> length V = n ->
  exists h, evaluate n actions (atoms reals n vmin vmax ((vmax - vmin) / INR (n - 1))) A V (reset_head n actions) = Some h /\
    length (h_sm h) = (actions * n)%nat /\ length (h_q h) = actions /\
    (forall i k, (i < actions)%nat -> (k < n)%nat -> el (h_sm h) (i * n + k) = prob n actions V A i k) /\
    (forall i, (i < actions)%nat -> el (h_q h) i = value n actions vmin vmax V A i).
Proof.
  intros Hn Ha HA HV. unfold evaluate. cbn [h_mean h_add h_sm h_q h_error reset_head].
  destruct (C38_aggregation n actions A V (replicate (actions * n) 0) (replicate (actions * n) 0) ltac:(lia) Ha HA HV (replicate_length _ _) (replicate_length _ _)) as (mean' & add' & sm' & E & L2 & L3 & H1 & _ & _ & H2).
  rewrite E. cbn [mbind option_bind]. destruct (atoms_run n vmin vmax Hn) as (support & -> & Hsl & Hse).
  destruct (C38_q_functions n actions sm' support L3 Hsl) as (q & Eq & Lq & Hq). rewrite Eq. cbn [mbind option_bind]. eexists. split; [done|]. cbn [h_sm h_q].
  assert (Hp : forall i k, (i < actions)%nat -> (k < n)%nat -> el sm' (i * n + k) = prob n actions V A i k).
  { intros i k Hi Hk. rewrite H2, H1 by done. unfold prob, logit, mean_advantage. f_equal. apply sumn_ext. intros. by rewrite H1. }
  split; [done|]. split; [done|]. split; [done|]. intros i Hi. rewrite Hq by done. unfold value. apply sumn_ext. intros k Hk. by rewrite Hp, Hse.
Qed.
Lemma projected_ext n vmin vmax reward lambda nonterminal p p' j : (forall i, (i < n)%nat -> el p i = el p' i) ->
  projected n vmin vmax reward lambda nonterminal p j = projected n vmin vmax reward lambda nonterminal p' j.
Proof. intros H. unfold projected. apply sumn_ext. intros i Hi. unfold mass. destruct nonterminal; [by rewrite H|done]. Qed.

(** the distribution of action a of the network with streams V, A *)
Definition row_of (n actions : nat) (V A : list R) (a : nat) : list R := map (prob n actions V A a) (seq 0 n).

(** the whole loss function on reset networks: the action a of the next state is the first of greatest value for the
    TARGET network; the target m is the projection of the distribution of a in the ONLINE network (plain variant) or in
    the target network (_opt variant); the errors of action_t are the derivatives of the cross-entropy -sum m ln p with
    respect to the probabilities p of action_t; all other errors are 0 *)
Theorem C39_loss : forall copied n actions vmin vmax z A0 V0 A1 V1 A2 V2 action_t reward lambda nonterminal,
  (2 <= n)%nat -> vmin < vmax -> spacing reals n vmin vmax = Some z -> (action_t < actions)%nat ->
  length A0 = (actions * n)%nat -> length V0 = n -> length A1 = (actions * n)%nat -> length V1 = n -> length A2 = (actions * n)%nat -> length V2 = n ->
  exists a err, first_argmax actions (value n actions vmin vmax V2 A2) a /\
    categorical_loss copied n actions vmin vmax z (atoms reals n vmin vmax z) A0 V0 A1 V1 A2 V2 (reset_head n actions) (reset_head n actions) action_t reward lambda nonterminal = Some err /\
    length err = (actions * n)%nat /\
    let m := projected n vmin vmax reward lambda nonterminal (if copied then row_of n actions V1 A1 a else row_of n actions V2 A2 a) in
    (forall k, (k < n)%nat -> el err (action_t * n + k) = - (m k / prob n actions V0 A0 action_t k)) /\
    (forall k, (k < n)%nat -> has_partial (fun p => - sumn n (fun i => m i * ln (el p i))) (row_of n actions V0 A0 action_t) k (el err (action_t * n + k))) /\
    (forall i k, (i < actions)%nat -> (k < n)%nat -> i <> action_t -> el err (i * n + k) = 0).
Proof.
  intros copied n actions vmin vmax z A0 V0 A1 V1 A2 V2 action_t reward lambda nonterminal Hn Hv Hz Hat HA0 HV0 HA1 HV1 HA2 HV2.
  assert (Hn1 : INR (n - 1) <> 0) by (apply not_0_INR; lia).
  unfold spacing in Hz. cbn in Hz. rewrite decide_False in Hz by done. injection Hz as <-.
  assert (Ha : (0 < actions)%nat) by lia. unfold categorical_loss.
  destruct (evaluate_reset n actions vmin vmax V1 A1 Hn Ha HA1 HV1) as (h1 & E1 & Ls1 & Lq1 & Hp1 & Hq1). rewrite E1. cbn [mbind option_bind].
  destruct (evaluate_reset n actions vmin vmax V2 A2 Hn Ha HA2 HV2) as (h2 & E2 & Ls2 & Lq2 & Hp2 & Hq2). rewrite E2. cbn [mbind option_bind].
  destruct (argmax_run (h_q h2) actions ltac:(lia)) as (a & Ea & Hfa). rewrite Ea. cbn [mbind option_bind].
  assert (Hfa' : first_argmax actions (value n actions vmin vmax V2 A2) a) by (eapply first_argmax_ext; [exact Hq2|done]).
  assert (Hal : (a < actions)%nat) by apply Hfa. assert (Hin : (a * n + n <= actions * n)%nat) by nia.
  assert (Hc : exists tsm, (if copied then for_loop n 0 (fun k sm => x ← rd (h_sm h1) (a * n + k)%nat; wr sm (a * n + k)%nat x) (h_sm h2) else Some (h_sm h2)) = Some tsm /\
     length tsm = (actions * n)%nat /\ forall k, (k < n)%nat -> el tsm (a * n + k) = el (if copied then row_of n actions V1 A1 a else row_of n actions V2 A2 a) k).
  { destruct copied.
    - rewrite (Pointwise_loop (actions * n) n (a * n) _ (fun k _ => el (h_sm h1) (a * n + k)) Hin); [| |done].
      + eexists. split; [done|]. rewrite imap_length. split; [done|]. intros k Hk. rewrite el_imap by lia. rewrite decide_True by lia.
        replace (a * n + k - a * n)%nat with k by lia. rewrite Hp1 by done. unfold row_of. by rewrite el_map_seq.
      + intros k Hk l Hl. rewrite rd_el by lia. cbn [mbind option_bind]. by rewrite (Pointwise_wr (actions * n)) by lia.
    - eexists. split; [done|]. split; [done|]. intros k Hk. rewrite Hp2 by done. unfold row_of. by rewrite el_map_seq. }
  destruct Hc as (tsm & Ec & Lt & Ht). rewrite Ec. cbn [mbind option_bind h_mean h_add h_sm h_error reset_head].
  destruct (C38_aggregation n actions A0 V0 (replicate (actions * n) 0) (replicate (actions * n) 0) ltac:(lia) Ha HA0 HV0 (replicate_length _ _) (replicate_length _ _)) as (mean' & add' & sm' & E & L2 & L3 & H1 & _ & _ & H2).
  rewrite E. cbn [mbind option_bind].
  assert (Hp : forall i k, (i < actions)%nat -> (k < n)%nat -> el sm' (i * n + k) = prob n actions V0 A0 i k).
  { intros i k Hi Hk. rewrite H2, H1 by done. unfold prob, logit, mean_advantage. f_equal. apply sumn_ext. intros. by rewrite H1. }
  destruct (projection_run n nonterminal reward lambda vmin vmax (drop (a * n) tsm) Hn Hv ltac:(rewrite drop_length; lia)) as (m & Em & Lm & Hm). rewrite Em. cbn [mbind option_bind].
  destruct (error_row_run n actions action_t m sm' (replicate (actions * n) 0) Lm L3 (replicate_length _ _) Hat) as (err & Ee & Le & He1 & He2).
  { intros k Hk. rewrite Hp by done. apply Rgt_not_eq, prob_pos. lia. }
  exists a, err. split; [done|]. split; [done|]. split; [done|].
  assert (Hm' : forall k, (k < n)%nat -> el m k = projected n vmin vmax reward lambda nonterminal (if copied then row_of n actions V1 A1 a else row_of n actions V2 A2 a) k).
  { intros k Hk. rewrite Hm by done. apply projected_ext. intros i Hi. rewrite el_drop. by apply Ht. }
  cbv zeta. set (mm := projected n vmin vmax reward lambda nonterminal (if copied then row_of n actions V1 A1 a else row_of n actions V2 A2 a)) in *.
  assert (He1' : forall k, (k < n)%nat -> el err (action_t * n + k) = - (mm k / prob n actions V0 A0 action_t k)) by (intros k Hk; by rewrite He1, Hm', Hp).
  split; [done|]. split.
  - intros k Hk. rewrite He1' by done. set (row := row_of n actions V0 A0 action_t).
    assert (Lr : length row = n) by (unfold row, row_of; by rewrite map_length, seq_length).
    assert (Hr : el row k = prob n actions V0 A0 action_t k) by (unfold row, row_of; by rewrite el_map_seq).
    assert (Hpk : 0 < el row k) by (rewrite Hr; apply prob_pos; lia).
    unfold has_partial.
    apply (dlim_ext _ (fun t => -1 * sumn n (fun i => mm i * ln (el (<[k:=t]> row) i)))); [intros; lra|].
    replace (- (mm k / prob n actions V0 A0 action_t k)) with (-1 * sumn n (fun i => if decide (i = k) then mm i * / el row k else 0)).
    2: { rewrite (sumn_delta n k (fun i => mm i * / el row k)) by done. rewrite Hr. unfold Rdiv. lra. }
    apply dlim_scal. apply (dlim_sumn n (fun i t => mm i * ln (el (<[k:=t]> row) i))). intros i Hi. destruct (decide (i = k)) as [->|Hne].
    + apply dlim_scal. apply (dlim_ext _ ln); [intros; by rewrite el_upd_eq by lia|]. by apply derivable_pt_lim_ln.
    + apply (dlim_ext _ (fun _ => mm i * ln (el row i))); [intros; by rewrite el_upd_ne|]. apply dlim_const.
  - intros i k Hi Hk Hne. rewrite He2; [by rewrite el_replicate|]. destruct (decide (i < action_t)%nat); [left|right]; nia.
Qed.
Example C39_loss_case : (2 <= 2)%nat /\ 0 < 1 /\ spacing reals 2 0 1 = Some ((1 - 0) / INR 1) /\ (0 < 1)%nat /\ length [0;0] = (1 * 2)%nat.
Proof. split; [lia|]. split; [lra|]. split; [|split; [lia|done]]. unfold spacing. cbn. rewrite decide_False by lra. done. Qed.

(** the priority returned by the _opt_with_error variant is the weight times the divergence of the online distribution
    from the projected target, which is not negative; the errors are those above times the weight *)
Theorem C39_priority : forall n actions vmin vmax A V p m sm action_t weight reward lambda nonterminal,
  (2 <= n)%nat -> vmin < vmax -> (action_t < actions)%nat -> 0 <= weight ->
  length p = n -> (forall i, (i < n)%nat -> 0 <= el p i) -> sumn n (el p) = 1 ->
  length m = n -> (forall j, (j < n)%nat -> el m j = projected n vmin vmax reward lambda nonterminal p j) ->
  length sm = (actions * n)%nat -> (forall i k, (i < actions)%nat -> (k < n)%nat -> el sm (i * n + k) = prob n actions V A i k) ->
  exists err, weighted_error_row n action_t weight m sm (replicate (actions * n) 0) = Some (err, weight * kl n (el m) (prob n actions V A action_t)) /\
    0 <= kl n (el m) (prob n actions V A action_t) /\
    forall k, (k < n)%nat -> el err (action_t * n + k) = - (weight * (el m k / prob n actions V A action_t k)).
Proof.
  intros n actions vmin vmax A V p m sm action_t weight reward lambda nonterminal Hn Hv Ha Hw Lp Hp Hsum Lm Hm Ls Hs.
  destruct (weighted_error_row_run n actions action_t weight m sm (replicate (actions * n) 0) Lm Ls (replicate_length _ _) Ha) as (err & E & L & H1 & H2).
  { intros k Hk. rewrite Hs by done. apply Rgt_not_eq, prob_pos. lia. }
  assert (Ek : kl n (el m) (fun k => el sm (action_t * n + k)) = kl n (el m) (prob n actions V A action_t)).
  { apply sumn_ext. intros k Hk. by rewrite Hs. }
  assert (Hk : 0 <= kl n (el m) (prob n actions V A action_t)).
  { apply kl_nonneg.
    - intros i Hi. rewrite Hm by done. apply projected_nonneg; [done|]. intros _. done.
    - intros i Hi. apply prob_pos. lia.
    - rewrite prob_sum by lia. rewrite (sumn_ext _ _ _ Hm). rewrite projected_total by done. destruct nonterminal.
      + change (sumn n (mass n true p)) with (sumn n (el p)). lra.
      + change (sumn n (mass n false p)) with (sumn n (fun _ : nat => 1 / INR n)). rewrite sumn_const. right. field. apply not_0_INR. lia. }
  rewrite Ek in E. exists err. split; [|split; [done|]].
  - rewrite E. do 2 f_equal. apply Rabs_right. apply Rle_ge. by apply Rmult_le_pos.
  - intros k Hk'. rewrite H1 by done. by rewrite Hs.
Qed.

(** ** C54 *)
(** the plain loss and the _opt loss are not the same function: two atoms 0 and 1, one action, no reward, no discount
    of the next state, equal online and target value streams except at the next state, where they are (ln 3, 0) and
    (0, 0).  The first error is -3/2 in the plain variant and -1 in the _opt variant. *)
Theorem C54_refuted :
  exists e1 e2,
    categorical_loss true 2 1 0 1 1 [0; 1] [0;0] [0;0] [0;0] [ln 3; 0] [0;0] [0;0] (reset_head 2 1) (reset_head 2 1) 0 0 1 true = Some e1 /\
    categorical_loss false 2 1 0 1 1 [0; 1] [0;0] [0;0] [0;0] [ln 3; 0] [0;0] [0;0] (reset_head 2 1) (reset_head 2 1) 0 0 1 true = Some e2 /\
    el e1 0 = -3/2 /\ el e2 0 = -1.
Proof.
  assert (Hz : spacing reals 2 0 1 = Some 1). { unfold spacing. cbn. rewrite decide_False by lra. f_equal. lra. }
  assert (Hat : atoms reals 2 0 1 1 = [0; 1]). { unfold atoms. cbn. f_equal. lra. }
  assert (Hq : forall V : list R, prob 2 1 V [0;0] 0 0 = exp (el V 0) / (exp (el V 0) + exp (el V 1))).
  { intros V. unfold prob, logit, mean_advantage. cbn [sumn]. unfold el at 2 3 5 6 8 9. cbn. f_equal; [f_equal; lra|]. rewrite Rplus_0_l. f_equal; f_equal; lra. }
  assert (Hproj : forall p, projected 2 0 1 0 1 true p 0 = el p 0).
  { intros p. unfold projected. cbn [sumn]. unfold mass, moved, atom. cbn [INR Nat.sub].
    unfold clipped, share. rewrite !Rmult_0_l, !Rplus_0_l, !Rmult_1_l.
    replace ((1 - 0) / 1) with 1 by lra. replace (0 + 1 * 0) with 0 by lra.
    rewrite (Rmin_right 1 0) by lra. rewrite (Rmax_left 0 0) by lra. rewrite (Rmin_left 1 1) by lra. rewrite (Rmax_right 0 1) by lra.
    replace (0 - 0) with 0 by lra. rewrite Rabs_R0. replace (1 - 0) with 1 by lra. rewrite Rabs_R1.
    replace (1 - 0 / 1) with 1 by lra. replace (1 - 1 / 1) with 0 by lra. rewrite (Rmax_right 0 1) by lra. rewrite (Rmin_left 1 1) by lra.
    rewrite (Rmax_left 0 0) by lra. rewrite (Rmin_right 1 0) by lra. lra. }
  destruct (C39_loss true 2 1 0 1 1 [0;0] [0;0] [0;0] [ln 3; 0] [0;0] [0;0] 0 0 1 true ltac:(lia) ltac:(lra) Hz ltac:(lia) eq_refl eq_refl eq_refl eq_refl eq_refl eq_refl) as (a1 & e1 & Ha1 & E1 & _ & H1 & _).
  destruct (C39_loss false 2 1 0 1 1 [0;0] [0;0] [0;0] [ln 3; 0] [0;0] [0;0] 0 0 1 true ltac:(lia) ltac:(lra) Hz ltac:(lia) eq_refl eq_refl eq_refl eq_refl eq_refl eq_refl) as (a2 & e2 & Ha2 & E2 & _ & H2 & _).
  rewrite Hat in E1, E2. exists e1, e2. split; [exact E1|]. split; [exact E2|].
  assert (a1 = 0%nat) as -> by (destruct Ha1; lia). assert (a2 = 0%nat) as -> by (destruct Ha2; lia).
  specialize (H1 0%nat ltac:(lia)). specialize (H2 0%nat ltac:(lia)). cbn [Nat.mul Nat.add] in H1, H2. rewrite H1, H2. rewrite !Hproj, !Hq. unfold row_of. rewrite !el_map_seq by lia. rewrite !Hq.
  unfold el. cbn [nth]. rewrite exp_0. rewrite exp_ln by lra. split; field.
Qed.

Print Assumptions C38_aggregation.
Print Assumptions C38_advantage_error_refuted.
Print Assumptions C39_projection.
Print Assumptions C39_float_refuted.
Print Assumptions C39_loss.
Print Assumptions C54_refuted.
