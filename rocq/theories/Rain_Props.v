(** C67: what a training step of the rainbow agent is trained with (src/rainbow.c:1584-1772). *)
From Verif Require Import RealSum Order OrderLemmas Heap_Model Cumul_Model Cumul_Spec Cumul_Proofs Replay_Spec Replay_Model Replay_Props Rewards_Spec Rewards_Model Rewards_Proofs Rewards_Props
  NStep_Spec NStep_Model NStep_Props Rain_Spec Rain_Model Rain_Proofs Rain2_Proofs Rain3_Proofs.
Open Scope nat_scope.

(** For every history of stored rewards and uses, every exponent alpha, every positive exponent beta and
    every batch no larger than the number of stored transitions, with draws in the range of r2() (the
    second one not 0): the batch is sampled without undefined behaviour and consists of different
    occupied slots. *)
Theorem C67_reward_batch_is_distinct :
  forall (alpha beta : R) (c : nat) (h : list rop) (r : rstate) (draws : list (R * R)),
    0 < c -> valid_rops c 0 h -> ~ NaN ∈ rewards_of h -> rrun alpha (init_rstate c) h = Some r -> (0 < beta)%R ->
    length draws <= stored c (length (rewards_of h)) -> Forall (fun d => 0 <= d.1 <= 1 /\ 0 < d.2 <= 1)%R draws ->
    exists batch, reward_batch alpha beta r draws = Some batch /\ length batch = length draws /\ NoDup batch /\
      forall j, j ∈ batch -> j < stored c (length (rewards_of h)).
Proof.
  intros alpha beta c h r draws Hc HV HN Hr Hb Hlen HF.
  destruct (reach_ok alpha c h r Hc HV HN Hr) as (Hcap & Hcls & Hdisj & Hcnt & Hst). pose proof (reach_total alpha c h r Hc HV HN Hr) as HT.
  pose proof (first_binv alpha c r Hcap Hc Hcls Hdisj) as H0.
  destruct (steps_ok alpha beta c r Hcap Hc Hcls Hdisj draws ltac:(lra) HF _ H0) as (b & E & H & Ht).
  { rewrite HT. unfold total_taken. cbn. lia. }
  exists (bbatch b). unfold reward_batch. rewrite E. split; [done|]. split; [rewrite (binv_total alpha c r Hcap Hc Hcls Hdisj b H), Ht; done|].
  split; [by eapply binv_nodup|]. intros j Hj. rewrite (bi_batch _ _ _ _ H), !elem_of_app in Hj.
  assert (Hk : exists k, j ∈ taken b k) by (destruct Hj as [?|[?|?]]; eauto). destruct Hk as [k Hk].
  destruct (bi_in _ _ _ _ H k j Hk) as (m & Hm & Hm0). apply (Hst k).
  assert (j < c) by (by eapply taken_lt). destruct (Hcnt k j) as [[? _]|[_ E0]]; [done|done|congruence].
Qed.
Print Assumptions C67_reward_batch_is_distinct.

(** How each entry of the batch is drawn.  There is one order of the slots, depending on the capacity
    only, such that for every history and every earlier part of the batch: the class of the next entry
    is the one in whose interval the first draw falls, the intervals (in the order negative, positive,
    neutral) being proportional to (1/number of transitions of the class)^beta, and empty for a class
    that is already exhausted; within the class the entry is the free slot in whose interval the second
    draw falls, the intervals being proportional to (1/(1+number of uses))^alpha. *)
Theorem C67_each_entry_is_drawn_by_class_then_weight :
  forall (c : nat), 0 < c -> exists order, order ≡ₚ seq 0 c /\
    forall (alpha beta : R) (h : list rop) (r : rstate) (draws : list (R * R)) (samp p : R),
    valid_rops c 0 h -> ~ NaN ∈ rewards_of h -> rrun alpha (init_rstate c) h = Some r -> (0 < beta)%R ->
    length draws + 1 <= stored c (length (rewards_of h)) -> Forall (fun d => 0 <= d.1 <= 1 /\ 0 < d.2 <= 1)%R draws ->
    (0 < samp <= 1)%R -> (0 < p <= 1)%R ->
    exists batch v k, reward_batch alpha beta r draws = Some batch /\ reward_batch alpha beta r (draws ++ [(samp, p)]) = Some (batch ++ [v]) /\
      v ∉ batch /\ holds c h k v /\
      (forall part L : class -> list nat, (forall k', in_class c h k' batch (part k')) -> (forall k', enumerates c h k' (L k')) ->
         let wt k' := class_weight beta (length (part k')) (length (L k')) in class_interval wt (samp * suml (map wt class_order)) k) /\
      (forall w : list R, length w = c -> (forall j, holds c h k j -> w !! j = Some (slot_weight alpha c h j)) ->
         (forall j, j < c -> ~ holds c h k j -> w !! j = Some 0%R) ->
         interval_of w batch order (p * suml (map (free_weight w batch) (seq 0 c))) v).
Proof.
  intros c Hc. exists (pre c c 0). split.
  { apply NoDup_Permutation; [apply NoDup_pre; lia|apply NoDup_ListNoDup, seq_NoDup|].
    intros i. rewrite <- (pre_perm c). rewrite !elem_of_pre by lia. done. }
  intros alpha beta h r draws samp p HV HN Hr Hb Hlen HF Hs Hp.
  destruct (reach_ok alpha c h r Hc HV HN Hr) as (Hcap & Hcls & Hdisj & Hcnt & Hst). pose proof (reach_total alpha c h r Hc HV HN Hr) as HT.
  pose proof (first_binv alpha c r Hcap Hc Hcls Hdisj) as H0.
  destruct (steps_ok alpha beta c r Hcap Hc Hcls Hdisj draws ltac:(lra) HF _ H0) as (b & E & H & Ht).
  { rewrite HT. unfold total_taken. cbn. lia. }
  destruct (step_ok alpha beta c r Hcap Hc Hcls Hdisj b (samp, p) ltac:(lra) H) as (b' & k & v & E' & H' & Hbb & HI & _ & Hv & (m & Hm & Hm0) & HI2).
  { unfold total_taken in Ht. cbn in Ht. unfold total_len in HT.
    destruct (decide (length (taken b Negative) < len c r Negative)); [eauto|].
    destruct (decide (length (taken b Positive) < len c r Positive)); [eauto|]. exists Neutral. lia. }
  { cbn. lra. }
  { done. }
  exists (bbatch b), v, k. unfold reward_batch. rewrite draw_steps_app, E. cbn [mbind option_bind draw_steps]. rewrite E'. cbn [mbind option_bind]. rewrite Hbb.
  split; [done|]. split; [done|].
  pose proof (binv_nodup alpha c r Hcap Hc Hcls Hdisj b' H') as Hnd. rewrite Hbb in Hnd. apply list.NoDup_app in Hnd as (_ & Hnd & _).
  assert (Hnz : forall k' j, holds c h k' j <-> exists m, cnt (class_state r k') !! j = Some m /\ m <> 0).
  { intros k' j. split.
    - intros Hh. destruct (Hcnt k' j) as [[_ E0]|[? _]]; [by destruct Hh|rewrite E0; eexists; split; [done|lia]|done].
    - intros (m' & Hm' & Hm'0). destruct (Hcnt k' j) as [[? _]|[_ E0]]; [|done|congruence].
      apply lookup_lt_Some in Hm'. destruct (Hcls k') as [<- _]. done. }
  assert (Htk : forall k' j, j ∈ taken b k' <-> j ∈ bbatch b /\ holds c h k' j).
  { intros k' j. rewrite (bi_batch _ _ _ _ H), !elem_of_app. split.
    - intros Hj. split; [destruct k'; tauto|]. apply Hnz. by apply (bi_in _ _ _ _ H).
    - intros [Hj Hh]. assert (Hk : exists k2, j ∈ taken b k2) by (destruct Hj as [?|[?|?]]; eauto). destruct Hk as [k2 Hk].
      destruct (decide (k2 = k')) as [->|Hne]; [done|]. exfalso. apply Hnz in Hh as (m1 & Hm1 & Hm10).
      destruct (bi_in _ _ _ _ H k2 j Hk) as (m2 & Hm2 & Hm20). rewrite (Hdisj k' k2 j m1 Hm1 Hm10 Hne) in Hm2. congruence. }
  split; [intros Hin; apply (Hnd v Hin); set_solver|]. split; [apply Hnz; eauto|]. split.
  - intros part L Hpart HL. assert (Hpl : forall k', length (part k') = length (taken b k')).
    { intros k'. apply Permutation_length, NoDup_Permutation; [apply Hpart|apply (bi_nodup _ _ _ _ H)|]. intros j. rewrite Htk. apply Hpart. }
    assert (HLl : forall k', length (L k') = len c r k') by (intros k'; by eapply len_enum).
    specialize (HI ltac:(cbn; lra)). cbn zeta in HI. cbn [fst] in HI. unfold class_interval in *. cbn zeta.
    destruct HI as (bf & af & Eo & HI). exists bf, af. split; [done|].
    assert (Hext : forall k', class_weight beta (length (part k')) (length (L k')) = class_weight beta (length (taken b k')) (len c r k')) by (intros k'; by rewrite Hpl, HLl).
    rewrite Hext. rewrite (map_ext _ _ Hext bf). rewrite (map_ext _ _ Hext class_order). done.
  - intros w Hw Hin Hout. assert (w = ws alpha r k) as ->.
    { apply list_eq. intros j. destruct (decide (j < c)) as [Hj|Hj].
      - unfold ws. rewrite list_lookup_fmap. destruct (Hcnt k j Hj) as [[Hh ->]|[Hh ->]].
        + rewrite Hin by done. cbn [fmap option_fmap option_map]. f_equal.
        + rewrite Hout by done. cbn [fmap option_fmap option_map]. by rewrite cw_0.
      - rewrite (proj2 (lookup_ge_None w j)) by lia. symmetry. apply lookup_ge_None. rewrite (ws_len alpha c r Hcap Hc Hcls Hdisj k). lia. }
    assert (Hext : forall j, free_weight (ws alpha r k) (bbatch b) j = free_weight (ws alpha r k) (taken b k) j).
    { intros j. unfold free_weight. destruct (decide (j ∈ taken b k)) as [Hj|Hj].
      - by rewrite decide_True by by apply (Htk k j) in Hj as [? _].
      - case_decide as Hj2; [|done]. assert (Hnh : ~ holds c h k j) by (intros ?; apply Hj, Htk; done).
        unfold ws. rewrite list_lookup_fmap. destruct (cnt (class_state r k) !! j) as [m'|] eqn:Em; [|done]. cbn [fmap option_fmap option_map default].
        destruct (decide (m' = 0)) as [->|]; [by rewrite cw_0|]. exfalso. apply Hnh, Hnz. eauto. }
    destruct HI2 as (bf & af & Eo & HI2). exists bf, af. split; [done|].
    rewrite Hext. rewrite (map_ext _ _ Hext bf). rewrite (map_ext _ _ Hext (seq 0 c)). done.
Qed.
Print Assumptions C67_each_entry_is_drawn_by_class_then_weight.

(** beta = 0 (accepted by init_rainbow and never changed by training): pow(0,0) is 1, so classes without
    transitions keep a share of the draws.  With only negative rewards stored, two thirds of the draws
    search the empty neutral class and then read its counters out of bounds. *)
Theorem C67_beta_zero_refuted :
  forall (alpha : R) (c : nat) (h : list rop) (r : rstate) (samp p : R) (draws : list (R * R)),
    0 < c -> valid_rops c 0 h -> ~ NaN ∈ rewards_of h -> rrun alpha (init_rstate c) h = Some r ->
    0 < length (rewards_of h) -> (forall j, ~ holds c h Positive j) -> (forall j, ~ holds c h Neutral j) ->
    (1 / 3 < samp)%R -> reward_batch alpha 0 r ((samp, p) :: draws) = None.
Proof.
  intros alpha c h r samp p draws Hc HV HN Hr Hlen Hpos Hneu Hs.
  destruct (reach_ok alpha c h r Hc HV HN Hr) as (Hcap & Hcls & Hdisj & Hcnt & Hst). pose proof (reach_total alpha c h r Hc HV HN Hr) as HT.
  assert (HE : forall k, (forall j, ~ holds c h k j) -> len c r k = 0).
  { intros k Hk. rewrite <- (len_enum alpha c h r k []); try done. split; [constructor|]. intros j. split; [set_solver|]. intros ?. by destruct (Hk j). }
  pose proof (HE _ Hpos) as Lp. pose proof (HE _ Hneu) as Lz.
  assert (Hclen : forall k, clen (class_state r k) = Z.of_nat (len c r k)) by (intros k; apply (Hcls k)).
  pose proof (Hclen Negative) as En. pose proof (Hclen Positive) as Ep. pose proof (Hclen Neutral) as Ez. cbn [class_state] in En, Ep, Ez.
  rewrite Lp in Ep. rewrite Lz in Ez.
  assert (Ln : 0 < len c r Negative) by (unfold total_len in HT; unfold stored in HT; lia).
  unfold reward_batch. cbn [draw_steps]. unfold draw_step. cbn [fst snd first_bst bneg bpos bneu ptaken length]. rewrite En, Ep, Ez.
  assert (Hpick : pick_class 0 0 0 0 (Z.of_nat (len c r Negative)) (Z.of_nat 0) (Z.of_nat 0) samp = Neutral).
  { unfold pick_class. assert (Hp1 : forall x, powc x 0 = 1%R).
    { intros x. unfold powc. case_decide; [by rewrite decide_True|]. unfold Rpower. rewrite Rmult_0_l. apply exp_0. }
    rewrite !Hp1. cbv zeta. destruct (Z.ltb_spec (Z.of_nat 0) (Z.of_nat (len c r Negative))) as [_|?]; [|lia].
    destruct (Rle_dec samp (1 / (1 + 1 + 1))) as [?|_]; [lra|]. done. }
  rewrite Hpick. unfold draw_in. cbn [bpart class_state first_bst bneu ptaken psum bbatch].
  assert (Hz : cnt (neu r) = replicate c 0).
  { apply list_eq. intros j. destruct (decide (j < c)) as [Hj|Hj].
    - rewrite lookup_replicate_2 by done. destruct (Hcnt Neutral j Hj) as [[? _]|[_ E]]; [by destruct (Hneu j)|done].
    - rewrite !(proj2 (lookup_ge_None _ j)); [done|rewrite replicate_length; lia|]. destruct (Hcls Neutral) as [Hl _]. cbn [class_state] in Hl. lia. }
  rewrite Hz, Hcap. destruct (Hcls Neutral) as (_ & Hl2 & _). cbn [class_state] in Hl2. rewrite sample_rewards_empty by (done || lia). cbn [mbind option_bind].
  unfold rd. rewrite (proj2 (lookup_ge_None (replicate c 0) c)) by (rewrite replicate_length; lia). done.
Qed.
Print Assumptions C67_beta_zero_refuted.

(** Non-vacuity: a full buffer of three with one transition of each class. *)
Example C67_batch_case (alpha : R) : let h := [Store Pos; Store Neg; Use 0; Store Zero] in
  valid_rops 3 0 h /\ ~ NaN ∈ rewards_of h /\ stored 3 (length (rewards_of h)) = 3 /\
  Forall (fun d => 0 <= d.1 <= 1 /\ 0 < d.2 <= 1)%R [(1/2, 1); (0, 1/3); (1, 1/2)]%R.
Proof. cbn. split; [split_and!; lia|]. split; [set_solver|]. split; [done|]. repeat constructor; cbn; lra. Qed.
Example C67_beta_zero_case : let h := [Store Neg; Store Neg] in
  valid_rops 3 0 h /\ ~ NaN ∈ rewards_of h /\ 0 < length (rewards_of h) /\ (forall j, ~ holds 3 h Positive j) /\ (forall j, ~ holds 3 h Neutral j).
Proof.
  cbn. split; [done|]. split; [set_solver|]. split; [lia|].
  assert (H : forall k j, holds 3 [Store Neg; Store Neg] k j -> k = Negative).
  { intros k j (_ & s & (a & Ha & _) & Hk). cbn in Ha. destruct a as [|[|a]]; cbn in Ha; simplify_eq; cbn in Hk; by simplify_eq. }
  split; intros j Hj; by apply H in Hj.
Qed.

(** Importance weights of the ranked sampling: the entry of the batch in slot [slot] is weighted as if
    [slot] were its rank; so all weights are in (0,1], and the one of the last slot is 1. *)
Theorem C67_importance_weight_of_an_entry :
  forall (alpha beta : R) (length : nat) (batch : list nat) (i slot : nat),
    batch !! i = Some slot -> slot < length ->
    importance_weights alpha beta length batch !! i = Some (relative_weight alpha beta length slot) /\
    ((0 <= alpha)%R -> (0 <= beta)%R -> (0 < relative_weight alpha beta length slot <= 1)%R) /\
    relative_weight alpha beta length (length - 1) = 1%R.
Proof.
  intros alpha beta length batch i slot Hb Hs. split.
  - unfold importance_weights. rewrite list_lookup_fmap, Hb. cbn [fmap option_fmap option_map]. by rewrite weight_ok.
  - split; [|apply rel_last; lia]. intros Ha Hbt. split; [apply rel_pos|]. rewrite <- (rel_last alpha beta length) by lia. apply rel_le; [done|done|lia].
Qed.
Print Assumptions C67_importance_weight_of_an_entry.

(** The weight is the one of the sampled transition exactly if its slot number is its rank. *)
Theorem C67_importance_weight_is_right_only_if_slot_is_rank :
  forall (alpha beta : R) (length : nat) (batch : list nat) (i slot rank : nat),
    (0 < alpha)%R -> (0 < beta)%R -> batch !! i = Some slot -> slot < length -> rank < length ->
    importance_weights alpha beta length batch !! i = Some (relative_weight alpha beta length rank) <-> slot = rank.
Proof.
  intros alpha beta length batch i slot rank Ha Hb Hi Hs Hr.
  destruct (C67_importance_weight_of_an_entry alpha beta length batch i slot Hi Hs) as [-> _]. split; [|by intros ->].
  intros E. injection E as E. destruct (lt_eq_lt_dec slot rank) as [[Hlt|Heq]|Hlt]; [|done|].
  - pose proof (rel_lt alpha beta length slot rank Ha Hb ltac:(lia)). lra.
  - pose proof (rel_lt alpha beta length rank slot Ha Hb ltac:(lia)). lra.
Qed.
Print Assumptions C67_importance_weight_is_right_only_if_slot_is_rank.

(** So the weight is wrong for most transitions: after any history, a newly stored transition has rank 0
    (largest error, smallest weight), but unless it happens to be in slot 0 it is trained with a larger
    weight than it should be. *)
Theorem C67_importance_weights_refuted :
  forall (V T : Type) (ltb : V -> V -> bool) (v0 v100 : V) (c : nat) (history : list (op T V)) (t : T) (r : replay) (alpha beta : R),
    strict_weak_order ltb -> 0 < c -> valid_history c 0 history -> run ltb v100 (init_replay v0 c) history = Some r ->
    (0 < alpha)%R -> (0 < beta)%R ->
    let m := length (added history) in let n := stored c (m + 1) in
    m mod c <> 0 ->
    exists r' batch x, add_experience ltb v100 r t = Some r' /\ sampled_slots r' [0] = Some batch /\
      slots r' !! (m mod c) = Some (Some t) /\
      importance_weights alpha beta n batch !! 0 = Some x /\ (relative_weight alpha beta n 0 < x)%R.
Proof.
  intros V T ltb v0 v100 c history t r alpha beta Hs Hc HV Hr Ha Hb m n Hm.
  destruct (C08_new_transition_ranks_first V T ltb v0 v100 c history t r Hs Hc HV Hr) as (r' & e & E & Hsl & Hi & _). fold m in Hsl, Hi.
  exists r', [m mod c], (relative_weight alpha beta n (m mod c)). split; [done|]. split.
  { unfold sampled_slots. cbn. unfold rd. rewrite Hi. done. }
  split; [done|].
  assert (Hn : m mod c < n). { unfold n, stored. pose proof (Nat.mod_upper_bound m c ltac:(lia)). pose proof (Nat.mod_le m c ltac:(lia)). lia. }
  destruct (C67_importance_weight_of_an_entry alpha beta n [m mod c] 0 (m mod c) eq_refl Hn) as [-> _]. split; [done|].
  apply rel_lt; [done|done|lia].
Qed.
Print Assumptions C67_importance_weights_refuted.
Example C67_importance_case : valid_history (T := nat) (V := Z) 4 0 [Add 1; Add 2] /\ length (added (V := Z) [Add 1; Add 2]) mod 4 <> 0.
Proof. done. Qed.

(** The td-error calls: every element of the batch is trained exactly once, in order, with its own state,
    action, return, next state, terminal flag and weight; its discount is the one of the element at the
    same place of the first group. *)
Theorem C67_every_element_is_trained_once :
  forall (St : Type) (a : arrays St) (threads batch_size : nat), 0 < threads -> long a batch_size ->
    exists jobs, train_jobs a threads batch_size = Some jobs /\ length jobs = batch_size /\
      forall e x, jobs !! e = Some x ->
        a_state a !! e = Some (j_state x) /\ a_reward a !! e = Some (j_reward x) /\ a_action a !! e = Some (j_action x) /\
        a_next a !! e = Some (j_next x) /\ a_nonterminal a !! e = Some (j_nonterminal x) /\ a_weight a !! e = Some (j_weight x) /\
        a_lambda a !! (e mod threads) = Some (j_lambda x).
Proof.
  intros St a threads m Ht Hl. destruct (groups_ok a threads m Hl Ht (m + 1) 0 ltac:(lia)) as (l & E & Hlen & H).
  exists l. split; [exact E|]. split; [lia|]. exact H.
Qed.
Print Assumptions C67_every_element_is_trained_once.

(** With as many threads as the batch has elements, or with equal discounts, the discounts are right. *)
Theorem C67_discounts_partial :
  forall (St : Type) (a : arrays St) (threads batch_size : nat), 0 < threads -> long a batch_size ->
    batch_size <= threads \/ (forall e e' l l', a_lambda a !! e = Some l -> a_lambda a !! e' = Some l' -> l = l') ->
    exists jobs, train_jobs a threads batch_size = Some jobs /\ forall e x, jobs !! e = Some x -> a_lambda a !! e = Some (j_lambda x).
Proof.
  intros St a threads m Ht Hl Hor. destruct (C67_every_element_is_trained_once St a threads m Ht Hl) as (l & E & Hlen & H).
  exists l. split; [done|]. intros e x Hx. pose proof (lookup_lt_Some _ _ _ Hx) as He. apply H in Hx as (_ & _ & _ & _ & _ & _ & Hx).
  destruct Hor as [Hle|Heq].
  - rewrite Nat.mod_small in Hx by lia. done.
  - destruct (lookup_lt_is_Some_2 (a_lambda a) e) as [y Hy]; [destruct Hl as (_ & _ & _ & _ & _ & ? & _); lia|].
    rewrite Hy. f_equal. by eapply Heq.
Qed.
Print Assumptions C67_discounts_partial.

(** Otherwise they are not: the element that starts the second group is trained with the discount of the
    first element of the batch, whatever its own is. *)
Theorem C67_discounts_refuted :
  forall (St : Type) (a : arrays St) (threads batch_size : nat), 0 < threads -> threads < batch_size -> long a batch_size ->
    a_lambda a !! threads <> a_lambda a !! 0 ->
    exists jobs x, train_jobs a threads batch_size = Some jobs /\ jobs !! threads = Some x /\ a_lambda a !! threads <> Some (j_lambda x).
Proof.
  intros St a threads m Ht Hlt Hl Hne. destruct (C67_every_element_is_trained_once St a threads m Ht Hl) as (l & E & Hlen & H).
  destruct (lookup_lt_is_Some_2 l threads) as [x Hx]; [lia|]. exists l, x. split; [done|]. split; [done|].
  apply H in Hx as (_ & _ & _ & _ & _ & _ & Hx). rewrite Nat.mod_same in Hx by lia. congruence.
Qed.
Print Assumptions C67_discounts_refuted.

(** Different discounts in a batch are ordinary: with two-step returns the newest transition has a
    window of one step (discount lam), the others of two (lam^2). *)
Theorem C67_different_discounts_in_one_batch :
  forall (lam : R) (s : nat), (0 < lam < 1)%R ->
    let x := mkTr 0%R true s in let history := [Add (V := Z) x; Add x; Add x] in
    exists r n0 n2 l0 l2, run Z.ltb 100%Z (init_replay 0%Z 4) history = Some r /\
      n_step (cap r) (cur r) (slots r) lam 0 2 = Some n0 /\ n_step (cap r) (cur r) (slots r) lam 2 2 = Some n2 /\
      n_lambda n0 = Some l0 /\ n_lambda n2 = Some l2 /\ (l0 < l2)%R.
Proof.
  intros lam s Hlam x history.
  pose proof Zltb_swo as Hsw.
  destruct (run Z.ltb 100%Z (init_replay 0%Z 4) history) as [r|] eqn:Er.
  2:{ exfalso. destruct (C08_history_keeps_buffer_consistent Z (transition nat) Z.ltb 0%Z 100%Z 4 history Hsw ltac:(lia) ltac:(done)) as (r & E & _). congruence. }
  destruct (C13_n_step_return Z nat Z.ltb 0%Z 100%Z 4 history r lam 0 2 Hsw ltac:(lia) ltac:(done) Er ltac:(lia) ltac:(cbn; lia) ltac:(cbn; lia)) as (x0 & l0 & Hx0 & E0 & Hl0).
  destruct (C13_n_step_return Z nat Z.ltb 0%Z 100%Z 4 history r lam 2 2 Hsw ltac:(lia) ltac:(done) Er ltac:(lia) ltac:(cbn; lia) ltac:(cbn; lia)) as (x2 & l2 & Hx2 & E2 & Hl2).
  cbn in Hx0, Hx2. injection Hx0 as <-. injection Hx2 as <-. cbn in Hl0, Hl2. specialize (Hl0 eq_refl). specialize (Hl2 eq_refl). subst l0 l2.
  change (0 mod 4) with 0 in E0. change (2 mod 4) with 2 in E2.
  eexists r, _, _, _, _. split; [done|]. split; [exact E0|]. split; [exact E2|]. split; [reflexivity|]. split; [reflexivity|].
  rewrite !Rmult_1_r. rewrite <- (Rmult_1_r lam) at 3. apply Rmult_lt_compat_l; lra.
Qed.
Print Assumptions C67_different_discounts_in_one_batch.
Example C67_discount_case : long (mkArrays [1;2;3] [0;0;0]%R [0;1;0] [2;3;4] [true;true;true] [1/4;1/4;1/2]%R [1;1;1]%R) 3.
Proof. cbv. lia. Qed.
