(** C12: the three reward classes of the replay buffer stay consistent over every history. *)
From Verif Require Import RealSum Cumul_Model Cumul_Spec Replay_Spec Rewards_Spec Rewards_Model Rewards_Proofs.
Open Scope nat_scope.

Lemma latest_unique {T} c (xs : list T) j o o' : latest_in_slot c xs j o -> latest_in_slot c xs j o' -> o = o'.
Proof.
  destruct o as [t|], o' as [t'|]; cbn.
  - intros (a & Ha & Hm & Hl) (a' & Ha' & Hm' & Hl'). destruct (lt_eq_lt_dec a a') as [[Hlt| ->]|Hlt].
    + exfalso. apply (Hl a'); [split; [done|by eapply lookup_lt_Some]|done].
    + congruence.
    + exfalso. apply (Hl' a); [split; [done|by eapply lookup_lt_Some]|done].
  - intros (a & Ha & Hm & _) H. exfalso. by apply (H a); [eapply lookup_lt_Some|].
  - intros H (a & Ha & Hm & _). exfalso. by apply (H a); [eapply lookup_lt_Some|].
  - done.
Qed.

(** For every capacity, exponent and history of stores and uses (rewards not NaN, only occupied
    slots used): the history runs without error, and afterwards, for each of the three classes,
    the slots of the class are exactly those with a nonzero counter, the counter is one plus the
    number of uses since the transition was stored, the class length is the number of slots of
    the class, the class sum is the sum of their weights, and entry i of the class tree is the
    sum of the weights of the slots of the class strictly below i (i is a proper ancestor). *)
Theorem C12_reward_classes_stay_consistent (alpha : R) (c : nat) (h : list rop) :
  0 < c -> valid_rops c 0 h -> ~ NaN ∈ rewards_of h ->
  exists r, rrun alpha (init_rstate c) h = Some r /\ forall k L, enumerates c h k L ->
    (forall j, j ∈ L -> cnt (class_state r k) !! j = Some (1 + uses_since c 0 j 0 h)) /\
    (forall j, j < c -> j ∉ L -> cnt (class_state r k) !! j = Some 0) /\
    clen (class_state r k) = Z.of_nat (length L) /\
    csum (class_state r k) = suml (map (slot_weight alpha c h) L) /\
    (forall i, i < c -> ccum (class_state r k) !! i =
       Some (suml (map (fun j => if decide (ancestor i j) then slot_weight alpha c h j else 0%R) L))).
Proof.
  intros Hc HV HN. destruct (rrun_ok alpha c h Hc [] (fun _ => 0) (init_rstate c) (rinv_init alpha c Hc) HV HN) as (r & E & H).
  exists r. split; [done|]. cbn [app length] in H. intros k L [HND HL].
  pose proof (ri_cls _ _ _ _ _ H k) as (Hl1 & Hl2 & Hcum & Hsum & Hlen).
  assert (Hcnt : forall j, j < c -> (j ∈ L /\ cnt (class_state r k) !! j = Some (1 + uses_since c 0 j 0 h)) \/ (j ∉ L /\ cnt (class_state r k) !! j = Some 0)).
  { intros j Hj. destruct (lookup_lt_is_Some_2 (rews r) j) as [o Ho]; [rewrite (ri_len _ _ _ _ _ H); lia|].
    pose proof (ri_rews _ _ _ _ _ H _ _ Ho) as HLat. pose proof (ri_cnt _ _ _ _ _ H k _ _ Ho) as HC. rewrite uses_fun_spec in HC.
    rewrite HL. unfold holds. destruct o as [s|].
    - destruct (decide (class_of s = Some k)) as [Hk|Hk].
      + left. split; [eauto|]. rewrite HC. destruct s, k; try done; cbn [cnt_spec]; f_equal; lia.
      + right. split.
        * intros (_ & s' & HLat' & Hs'). apply Hk. assert (Some s = Some s') as Heq by by eapply latest_unique. by injection Heq as ->.
        * rewrite HC. destruct s, k; done.
    - right. split; [|rewrite HC; done]. intros (_ & s' & HLat' & Hs').
      assert (None = Some s') by by eapply latest_unique. done. }
  assert (HLc : forall j, j ∈ L -> j < c) by (intros j Hj; apply HL in Hj as [? _]; done).
  assert (Hperm : L ≡ₚ filter (fun j => 0 < default 0 (cnt (class_state r k) !! j)) (seq 0 c)).
  { apply NoDup_Permutation; [done|apply list.NoDup_filter; apply NoDup_ListNoDup, seq_NoDup|].
    intros j. rewrite elem_of_list_filter, elem_of_seq. split.
    - intros Hj. pose proof (HLc j Hj). destruct (Hcnt j) as [[_ ->]|[? _]]; [lia| |done]. cbn. lia.
    - intros [Hp Hj]. destruct (Hcnt j) as [[? _]|[_ E']]; [lia|done|]. rewrite E' in Hp. cbn in Hp. lia. }
  assert (Hw : forall (P : nat -> Prop) `{!forall j, Decision (P j)},
    sumn c (fun j => if decide (P j) then weight alpha (class_state r k) j else 0%R) =
    suml (map (fun j => if decide (P j) then slot_weight alpha c h j else 0%R) L)).
  { intros P HP. rewrite (suml_perm _ _ (Permutation_map _ Hperm)).
    assert (Hgen : forall n, n <= c -> sumn n (fun j => if decide (P j) then weight alpha (class_state r k) j else 0%R) =
      suml (map (fun j => if decide (P j) then slot_weight alpha c h j else 0%R) (filter (fun j => 0 < default 0 (cnt (class_state r k) !! j)) (seq 0 n)))).
    { induction n as [|n IH]; intros Hn; [done|]. cbn [sumn]. rewrite IH by lia. rewrite seq_S, list.filter_app, map_app, suml_app. f_equal.
      cbn [plus]. rewrite filter_cons, filter_nil. unfold weight. destruct (Hcnt n) as [[_ ->]|[_ ->]]; [lia| |].
      - change (default 0 (Some ?x)) with x. rewrite (decide_True (P := 0 < 1 + _)) by lia. cbn [map]. rewrite suml_cons, suml_nil, Rplus_0_r.
        destruct (decide (P n)); [|done]. unfold cw, slot_weight. by rewrite decide_False by lia.
      - change (default 0 (Some 0)) with 0. rewrite (decide_False (P := 0 < 0)) by lia. cbn [map]. rewrite suml_nil.
        destruct (decide (P n)); [|done]. apply cw_0. }
    by apply Hgen. }
  split_and!.
  - intros j Hj. destruct (Hcnt j) as [[_ ?]|[? _]]; [by apply HLc|done|done].
  - intros j Hj Hn. destruct (Hcnt j) as [[? _]|[_ ?]]; done.
  - rewrite Hlen. f_equal. unfold members. symmetry. by apply Permutation_length.
  - rewrite Hsum. pose proof (Hw (fun _ => True) _) as HT.
    etransitivity; [|etransitivity; [exact HT|]].
    + apply sumn_ext. intros. by rewrite decide_True.
    + apply suml_map_ext. intros. by rewrite decide_True.
  - intros i Hi. destruct (lookup_lt_is_Some_2 (ccum (class_state r k)) i) as [x Hx]; [lia|].
    rewrite Hx. f_equal. rewrite (Hcum i x Hx). apply (Hw (fun j => ancestor i j)).
Qed.

(** Each occupied slot is in exactly one class; so the three lengths add up to the number of stored transitions. *)
Theorem C12_lengths_add_up (alpha : R) (c : nat) (h : list rop) r :
  0 < c -> valid_rops c 0 h -> ~ NaN ∈ rewards_of h -> rrun alpha (init_rstate c) h = Some r ->
  (clen (pos r) + clen (neg r) + clen (neu r) = Z.of_nat (stored c (length (rewards_of h))))%Z.
Proof.
  intros Hc HV HN Hr. destruct (rrun_ok alpha c h Hc [] (fun _ => 0) (init_rstate c) (rinv_init alpha c Hc) HV HN) as (r' & E & H).
  rewrite Hr in E. injection E as <-. cbn [app length] in H.
  pose proof (ri_cls _ _ _ _ _ H Positive) as (_ & _ & _ & _ & L1). pose proof (ri_cls _ _ _ _ _ H Negative) as (_ & _ & _ & _ & L2).
  pose proof (ri_cls _ _ _ _ _ H Neutral) as (_ & _ & _ & _ & L3). cbn [class_state] in L1, L2, L3. rewrite L1, L2, L3. unfold members.
  assert (Hgen : forall n, n <= c ->
    length (filter (fun j => 0 < default 0 (cnt (pos r) !! j)) (seq 0 n)) + length (filter (fun j => 0 < default 0 (cnt (neg r) !! j)) (seq 0 n)) +
    length (filter (fun j => 0 < default 0 (cnt (neu r) !! j)) (seq 0 n)) = Nat.min n (length (rewards_of h))).
  { induction n as [|n IH]; intros Hn; [done|]. rewrite seq_S, !list.filter_app, !app_length. cbn [plus]. specialize (IH ltac:(lia)).
    destruct (lookup_lt_is_Some_2 (rews r) n) as [o Ho]; [rewrite (ri_len _ _ _ _ _ H); lia|].
    pose proof (ri_cnt _ _ _ _ _ H Positive _ _ Ho) as E1. pose proof (ri_cnt _ _ _ _ _ H Negative _ _ Ho) as E2. pose proof (ri_cnt _ _ _ _ _ H Neutral _ _ Ho) as E3.
    cbn [class_state] in *. rewrite !filter_cons, !filter_nil, E1, E2, E3.
    change (default 0 (Some ?x)) with x.
    pose proof (ri_rews _ _ _ _ _ H _ _ Ho) as HLat. pose proof (ri_nan _ _ _ _ _ H n) as Hnan. rewrite Ho in Hnan.
    destruct o as [s|].
    - assert (n < length (rewards_of h)).
      { destruct HLat as (j & Hj & Hm & _). apply lookup_lt_Some in Hj. pose proof (Nat.mod_le j c ltac:(lia)). lia. }
      destruct s; try done; cbn [cnt_spec]; repeat (destruct (decide (_ < _)); try lia); cbn [length]; lia.
    - assert (length (rewards_of h) <= n).
      { destruct (decide (n < length (rewards_of h))); [|lia]. exfalso. apply (HLat n); [done|]. apply Nat.mod_small. lia. }
      cbn [cnt_spec]. repeat (destruct (decide (_ < _)); try lia); cbn [length]; lia. }
  pose proof (Hgen c ltac:(lia)). unfold stored. lia.
Qed.

(** A NaN reward breaks the bookkeeping: a neutral transition overwritten by one with a NaN reward is
    counted negative, and the next overwrite looks for it in the neutral class and divides by its zero counter. *)
Theorem C12_nan_reward_refuted (alpha : R) :
  valid_rops 1 0 [Store Zero; Store NaN; Store Pos] /\
  rrun alpha (init_rstate 1) [Store Zero; Store NaN; Store Pos] = None.
Proof.
  split; [done|]. cbn [rrun rstep]. unfold store_reward at 1. cbn.
  repeat (destruct (inv_pow alpha _) eqn:?; cbn); try done.
Qed.

(** Non-vacuity: capacity 2, a wrap-around, a use, a change of class. *)
Example C12_example (alpha : R) : let h := [Store Pos; Store Neg; Use 0; Use 0; Store Zero] in
  valid_rops 2 0 h /\ ~ NaN ∈ rewards_of h /\ enumerates 2 h Neutral [0] /\ enumerates 2 h Positive [] /\ enumerates 2 h Negative [1].
Proof.
  cbn. split; [split_and!; lia|]. split; [set_solver|].
  assert (HL0 : latest_in_slot 2 [Pos; Neg; Zero] 0 (Some Zero)).
  { exists 2. split_and!; [done|done|]. intros j Hj. cbn in Hj. lia. }
  assert (HL1 : latest_in_slot 2 [Pos; Neg; Zero] 1 (Some Neg)).
  { exists 1. split_and!; [done|done|]. intros j Hj. cbn in Hj. by assert (j = 2) as -> by lia. }
  assert (HH : forall k j, holds 2 [Store Pos; Store Neg; Use 0; Use 0; Store Zero] k j <-> (j = 0 /\ k = Neutral) \/ (j = 1 /\ k = Negative)).
  { intros k j. unfold holds. cbn [rewards_of]. split.
    - intros (Hj & s & Hs & Hk). assert (j = 0 \/ j = 1) as [->| ->] by lia.
      + pose proof (latest_unique _ _ _ _ _ Hs HL0). simplify_eq. cbn in Hk. simplify_eq. by left.
      + pose proof (latest_unique _ _ _ _ _ Hs HL1). simplify_eq. cbn in Hk. simplify_eq. by right.
    - intros [[-> ->]|[-> ->]]; (split; [lia|]); eauto. }
  split; [|split]; (split; [repeat constructor; set_solver|]); intros j; rewrite HH, ?elem_of_list_singleton, ?elem_of_nil; intuition congruence.
Qed.

Print Assumptions C12_reward_classes_stay_consistent.
