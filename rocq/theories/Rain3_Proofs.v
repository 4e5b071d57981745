From Verif Require Import RealSum Heap_Model Cumul_Model Cumul_Spec Cumul_Proofs Replay_Spec Rewards_Spec Rewards_Model Rewards_Proofs Rewards_Props Rain_Spec Rain_Model Rain_Proofs Rain2_Proofs.
Open Scope nat_scope.

(** * What a history leaves in the buffer *)
Lemma reach_ok alpha c h r : 0 < c -> valid_rops c 0 h -> ~ NaN ∈ rewards_of h -> rrun alpha (init_rstate c) h = Some r ->
  rcap r = c /\ (forall k, cls_inv alpha c (class_state r k)) /\
  (forall k k' j m, cnt (class_state r k) !! j = Some m -> m <> 0 -> k' <> k -> cnt (class_state r k') !! j = Some 0) /\
  (forall k j, j < c -> (holds c h k j /\ cnt (class_state r k) !! j = Some (1 + uses_since c 0 j 0 h)) \/
                        (~ holds c h k j /\ cnt (class_state r k) !! j = Some 0)) /\
  (forall k j, holds c h k j -> j < stored c (length (rewards_of h))).
Proof.
  intros Hc HV HN Hr. destruct (rrun_ok alpha c h Hc [] (fun _ => 0) (init_rstate c) (rinv_init alpha c Hc) HV HN) as (r' & E & H).
  rewrite Hr in E. injection E as <-. cbn [app length] in H.
  assert (Hrews : forall j, j < c -> exists o, rews r !! j = Some o /\ latest_in_slot c (rewards_of h) j o /\
     forall k, cnt (class_state r k) !! j = Some (cnt_spec o k (uses_since c 0 j 0 h))).
  { intros j Hj. destruct (lookup_lt_is_Some_2 (rews r) j) as [o Ho]; [rewrite (ri_len _ _ _ _ _ H); lia|]. exists o. split; [done|].
    split; [by apply (ri_rews _ _ _ _ _ H)|]. intros k. rewrite <- (uses_fun_spec c h 0 (fun _ => 0) j). by apply (ri_cnt _ _ _ _ _ H). }
  split; [apply H|]. split; [apply H|]. split; [|split].
  - intros k k' j m Hm Hm0 Hne. assert (Hj : j < c).
    { apply lookup_lt_Some in Hm. destruct (ri_cls _ _ _ _ _ H k) as [<- _]. done. }
    destruct (Hrews j Hj) as (o & _ & _ & HC). rewrite HC in Hm. rewrite HC. injection Hm as <-. f_equal.
    destruct o as [s|]; [|done]. destruct s, k, k'; cbn [cnt_spec] in *; try done; congruence.
  - intros k j Hj. destruct (Hrews j Hj) as (o & _ & HL & HC). rewrite HC. unfold holds. destruct o as [s|].
    + destruct (decide (class_of s = Some k)) as [Hk|Hk].
      * left. split; [eauto|]. destruct s, k; try done; cbn [cnt_spec]; f_equal; lia.
      * right. split.
        -- intros (_ & s' & HL' & Hs'). apply Hk. assert (Some s = Some s') as Heq by by eapply latest_unique. by injection Heq as ->.
        -- destruct s, k; done.
    + right. split; [|done]. intros (_ & s' & HL' & _). assert (None = Some s') by by eapply latest_unique. done.
  - intros k j (Hj & s & (a & Ha & Hm & _) & _). apply lookup_lt_Some in Ha. unfold stored. pose proof (Nat.mod_le a c ltac:(lia)). lia.
Qed.

Lemma reach_total alpha c h r : 0 < c -> valid_rops c 0 h -> ~ NaN ∈ rewards_of h -> rrun alpha (init_rstate c) h = Some r ->
  total_len c r = stored c (length (rewards_of h)).
Proof.
  intros Hc HV HN Hr. pose proof (C12_lengths_add_up alpha c h r Hc HV HN Hr) as HT.
  destruct (reach_ok alpha c h r Hc HV HN Hr) as (_ & Hcls & _).
  pose proof (Hcls Positive) as (_ & _ & _ & _ & L1). pose proof (Hcls Negative) as (_ & _ & _ & _ & L2).
  pose proof (Hcls Neutral) as (_ & _ & _ & _ & L3). cbn [class_state] in L1, L2, L3. rewrite L1, L2, L3 in HT.
  unfold total_len, len. cbn [class_state]. lia.
Qed.

Lemma len_enum alpha c h r k L : 0 < c -> valid_rops c 0 h -> ~ NaN ∈ rewards_of h -> rrun alpha (init_rstate c) h = Some r ->
  enumerates c h k L -> length L = len c r k.
Proof.
  intros Hc HV HN Hr HL. destruct (C12_reward_classes_stay_consistent alpha c h Hc HV HN) as (r' & E & H).
  rewrite Hr in E. injection E as <-. destruct (H k L HL) as (_ & _ & Hlen & _).
  destruct (reach_ok alpha c h r Hc HV HN Hr) as (_ & Hcls & _). destruct (Hcls k) as (_ & _ & _ & _ & L1). rewrite L1 in Hlen. unfold len. lia.
Qed.

(** * Importance weights *)
Lemma ranked_pos alpha k : (0 < ranked_value alpha k)%R.
Proof. apply exp_pos. Qed.
Lemma ranked_sum_pos alpha n : 0 < n -> (0 < ranked_sum alpha n)%R.
Proof. intros Hn. apply sumn_pos; [done|]. intros. apply ranked_pos. Qed.
Lemma Rpower_div x y b : (0 < x)%R -> (0 < y)%R -> Rpower (x / y) b = (Rpower x b / Rpower y b)%R.
Proof.
  intros Hx Hy. unfold Rdiv. rewrite <- Rpower_mult_distr by (try apply Rinv_0_lt_compat; done). f_equal.
  unfold Rpower. rewrite ln_Rinv by done. rewrite <- exp_Ropp. f_equal. lra.
Qed.
Lemma Rpower_1_l b : Rpower 1 b = 1%R.
Proof. unfold Rpower. rewrite ln_1, Rmult_0_r. apply exp_0. Qed.

Lemma weight_ok alpha beta n s : s < n ->
  (raw_weight alpha beta n s * max_factor alpha beta n)%R = relative_weight alpha beta n s.
Proof.
  intros Hs. assert (Hn : 0 < n) by lia. pose proof (ranked_sum_pos alpha n Hn) as HS. pose proof (ranked_pos alpha s) as H1. pose proof (ranked_pos alpha (n - 1)) as H2.
  assert (HI : (0 < INR n)%R) by (apply lt_0_INR; lia).
  assert (Hq : forall k, (0 < INR n * (ranked_value alpha k / ranked_sum alpha n))%R).
  { intros k. apply Rmult_lt_0_compat; [done|]. apply Rdiv_lt_0_compat; [apply ranked_pos|done]. }
  unfold raw_weight, max_factor, relative_weight, rank_probability.
  fold (ranked_value alpha s) (ranked_value alpha (n - 1)). change (sumn n (fun j => Rpower (/ INR (j + 1)) alpha)) with (ranked_sum alpha n).
  rewrite !Rpower_div by (try done; try lra; apply Rdiv_lt_0_compat; done). rewrite Rpower_1_l.
  rewrite <- !Rpower_mult_distr by (try done; apply Rdiv_lt_0_compat; done).
  rewrite !Rpower_div by done.
  assert (forall x, Rpower x beta <> 0%R) as Hne by (intros x; apply Rgt_not_eq, exp_pos).
  field. split_and!; apply Hne.
Qed.

Lemma rel_closed alpha beta n k : k < n -> relative_weight alpha beta n k = exp (alpha * beta * (ln (INR (k + 1)) - ln (INR n))).
Proof.
  intros Hk. unfold relative_weight, rank_probability. set (S := sumn n _).
  assert (HS : (0 < S)%R) by (apply sumn_pos; [lia|intros; apply exp_pos]).
  replace (n - 1 + 1) with n by lia.
  assert (H1 : (0 < INR (k + 1))%R) by (apply lt_0_INR; lia). assert (H2 : (0 < INR n)%R) by (apply lt_0_INR; lia).
  replace (Rpower (/ INR n) alpha / S / (Rpower (/ INR (k + 1)) alpha / S))%R with (Rpower (/ INR n) alpha / Rpower (/ INR (k + 1)) alpha)%R.
  2:{ field. split; [lra|]. apply Rgt_not_eq, exp_pos. }
  rewrite Rpower_div by apply exp_pos. rewrite !Rpower_mult. unfold Rpower. rewrite !ln_Rinv by done. unfold Rdiv. rewrite <- exp_Ropp, <- exp_plus. f_equal. ring.
Qed.
Lemma rel_le alpha beta n j k : (0 <= alpha)%R -> (0 <= beta)%R -> j <= k < n -> (relative_weight alpha beta n j <= relative_weight alpha beta n k)%R.
Proof.
  intros Ha Hb Hk. rewrite !rel_closed by lia.
  assert (H1 : (0 < INR (j + 1))%R) by (apply lt_0_INR; lia).
  assert (Hln : (ln (INR (j + 1)) <= ln (INR (k + 1)))%R).
  { destruct (decide (j = k)) as [->|]; [lra|]. left. apply ln_increasing; [done|]. apply lt_INR. lia. }
  assert (Hab : (0 <= alpha * beta)%R) by by apply Rmult_le_pos.
  assert (Hle : (alpha * beta * (ln (INR (j + 1)) - ln (INR n)) <= alpha * beta * (ln (INR (k + 1)) - ln (INR n)))%R) by (apply Rmult_le_compat_l; lra).
  destruct Hle as [Hlt|Heq]; [left; by apply exp_increasing|right; by rewrite Heq].
Qed.
Lemma rel_lt alpha beta n j k : (0 < alpha)%R -> (0 < beta)%R -> j < k < n -> (relative_weight alpha beta n j < relative_weight alpha beta n k)%R.
Proof.
  intros Ha Hb Hk. rewrite !rel_closed by lia. apply exp_increasing.
  assert (H1 : (0 < INR (j + 1))%R) by (apply lt_0_INR; lia).
  assert (Hln : (ln (INR (j + 1)) < ln (INR (k + 1)))%R) by (apply ln_increasing; [done|apply lt_INR; lia]).
  apply Rmult_lt_compat_l; [by apply Rmult_lt_0_compat|lra].
Qed.
Lemma rel_pos alpha beta n k : (0 < relative_weight alpha beta n k)%R.
Proof. apply exp_pos. Qed.
Lemma rel_last alpha beta n : 0 < n -> relative_weight alpha beta n (n - 1) = 1%R.
Proof. intros Hn. rewrite rel_closed by lia. replace (n - 1 + 1) with n by lia. rewrite Rminus_diag_eq by done. rewrite Rmult_0_r. apply exp_0. Qed.

(** * The groups of the td-error computation *)
Section train.
  Context {St : Type}.
  Implicit Types a : arrays St.
  (** element e was given its own entries, and the discount of element l *)
  Definition own (a : arrays St) (e l : nat) (x : job St) : Prop :=
    a_state a !! e = Some (j_state x) /\ a_reward a !! e = Some (j_reward x) /\ a_action a !! e = Some (j_action x) /\
    a_next a !! e = Some (j_next x) /\ a_nonterminal a !! e = Some (j_nonterminal x) /\ a_weight a !! e = Some (j_weight x) /\
    a_lambda a !! l = Some (j_lambda x).

  Lemma thread_ok a m i j : long a m -> i + j < m -> exists x, thread_job a i j = Some x /\ own a (i + j) j x.
  Proof.
    intros (H1 & H2 & H3 & H4 & H5 & H6 & H7) Hij. unfold thread_job.
    destruct (rd_Some (a_state a) (i + j)) as [s1 E1]; [lia|]. destruct (rd_Some (a_reward a) (i + j)) as [s2 E2]; [lia|].
    destruct (rd_Some (a_action a) (i + j)) as [s3 E3]; [lia|]. destruct (rd_Some (a_next a) (i + j)) as [s4 E4]; [lia|].
    destruct (rd_Some (a_nonterminal a) (i + j)) as [s5 E5]; [lia|]. destruct (rd_Some (a_lambda a) j) as [s6 E6]; [lia|].
    destruct (rd_Some (a_weight a) (i + j)) as [s7 E7]; [lia|].
    rewrite E1, E2, E3, E4, E5, E6, E7. eexists. split; [done|]. done.
  Qed.

  Lemma group_ok a m i : long a m -> forall cnt j, i + j + cnt <= m ->
    exists l, group a i j cnt = Some l /\ length l = cnt /\ forall t x, l !! t = Some x -> own a (i + j + t) (j + t) x.
  Proof.
    intros Hl. induction cnt as [|cnt IH]; intros j Hj; cbn [group].
    - exists []. done.
    - destruct (thread_ok a m i j Hl ltac:(lia)) as (x & -> & Hx). cbn [mbind option_bind].
      destruct (IH (S j) ltac:(lia)) as (l & -> & Hlen & Hall). cbn [mbind option_bind]. exists (x :: l). split; [done|]. split; [cbn; lia|].
      intros [|t] y Hy; cbn in Hy.
      + injection Hy as <-. by rewrite !Nat.add_0_r.
      + apply Hall in Hy. by replace (i + j + S t) with (i + S j + t) by lia; replace (j + S t) with (S j + t) by lia.
  Qed.

  Lemma groups_ok a threads m : long a m -> 0 < threads -> forall fuel q, m - q * threads < fuel ->
    exists l, train_groups fuel a threads m (q * threads) = Some l /\ length l = m - q * threads /\
      forall t x, l !! t = Some x -> own a (q * threads + t) ((q * threads + t) mod threads) x.
  Proof.
    intros Hl Ht. induction fuel as [|fuel IH]; intros q Hf; [lia|]. cbn [train_groups]. case_decide as Hd.
    - exists []. split; [done|]. split; [cbn; lia|]. done.
    - destruct (group_ok a m (q * threads) Hl (Nat.min threads (m - q * threads)) 0 ltac:(lia)) as (g & -> & Hg & Hgall). cbn [mbind option_bind].
      replace (q * threads + threads) with (S q * threads) by lia. destruct (IH (S q) ltac:(lia)) as (l & -> & Hll & Hlall). cbn [mbind option_bind].
      exists (g ++ l). split; [done|]. split; [rewrite app_length; lia|]. intros t x Hx. apply lookup_app_Some in Hx as [Hx|[Hge Hx]].
      + pose proof (lookup_lt_Some _ _ _ Hx). apply Hgall in Hx. rewrite Nat.add_0_r in Hx.
        replace ((q * threads + t) mod threads) with t; [done|]. rewrite Nat.add_comm, Nat.mod_add by lia. symmetry. apply Nat.mod_small. lia.
      + pose proof (lookup_lt_Some _ _ _ Hx). apply Hlall in Hx. replace (q * threads + t) with (S q * threads + (t - length g)) by lia. done.
  Qed.
End train.
