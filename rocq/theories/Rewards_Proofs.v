From Verif Require Import RealSum Heap_Model Heap_Proofs Cumul_Model Cumul_Spec Cumul_Proofs Replay_Spec Replay_Proofs Rewards_Spec Rewards_Model.
Open Scope nat_scope.

Section rewards.
  Context (alpha : R).

  Definition cw (k : nat) : R := if decide (k = 0) then 0%R else Rpower (/ INR k) alpha.
  Lemma cw_1 : cw 1 = 1%R.
  Proof. unfold cw. rewrite decide_False by lia. cbn. rewrite Rinv_1. unfold Rpower. rewrite ln_1, Rmult_0_r. apply exp_0. Qed.
  Lemma cw_0 : cw 0 = 0%R. Proof. done. Qed.
  Lemma inv_pow_cw k : k <> 0 -> inv_pow alpha k = Some (cw k).
  Proof. intros H. unfold inv_pow, cw. by rewrite !decide_False. Qed.

  Definition weight (c : cls) (j : nat) : R := cw (default 0 (cnt c !! j)).
  Definition members (c : cls) (n : nat) : nat := length (filter (fun j => 0 < default 0 (cnt c !! j)) (seq 0 n)).

  Definition cls_inv (n : nat) (c : cls) : Prop :=
    length (cnt c) = n /\ length (ccum c) = n /\
    (forall i x, ccum c !! i = Some x -> x = sumn n (fun j => if decide (ancestor i j) then weight c j else 0%R)) /\
    csum c = sumn n (weight c) /\
    clen c = Z.of_nat (members c n).

  Lemma members_change n (c : list nat) (index k : nat) : length c = n -> index < n ->
    let f (l : list nat) := Z.of_nat (length (filter (fun j => 0 < default 0 (l !! j)) (seq 0 n))) in
    (f (<[index := k]> c) = f c - (if decide (0 < default 0 (c !! index))%nat then 1 else 0) + (if decide (0 < k)%nat then 1 else 0))%Z.
  Proof.
    intros Hl Hi f. unfold f. clear f.
    assert (Hgen : forall m, m <= n ->
      (Z.of_nat (length (filter (fun j => 0 < default 0 (<[index:=k]> c !! j))%nat (seq 0 m))) =
      Z.of_nat (length (filter (fun j => 0 < default 0 (c !! j))%nat (seq 0 m))) +
       if decide (index < m)%nat then (if decide (0 < k)%nat then 1 else 0) - (if decide (0 < default 0 (c !! index))%nat then 1 else 0) else 0)%Z).
    { induction m as [|m IH]; intros Hm; [rewrite (decide_False (P := index < 0)) by lia; done|]. rewrite seq_S. cbn [plus].
      rewrite !list.filter_app, !app_length, !Nat2Z.inj_add, IH by lia. rewrite !filter_cons, !filter_nil.
      destruct (decide (m = index)) as [->|Hne].
      - rewrite (decide_False (P := index < index)) by lia. rewrite (decide_True (P := index < S index)) by lia.
        assert (<[index:=k]> c !! index = Some k) as -> by (apply list_lookup_insert; lia). change (default 0 (Some k)) with k.
        destruct (decide (0 < k)), (decide (0 < default 0 (c !! index))); cbn [length]; lia.
      - rewrite list_lookup_insert_ne by done.
        destruct (decide (index < m)), (decide (index < S m)); try lia;
        destruct (decide (0 < default 0 (c !! m))); cbn [length]; lia. }
    rewrite (Hgen n) by lia. rewrite (decide_True (P := index < n)) by done. lia.
  Qed.

  (** all four operations are a change of one counter *)
  Lemma change_ok n c index old k cum1 len1 sum1 :
    cls_inv n c -> index < n -> cnt c !! index = Some old ->
    update_up (index + 1) (ccum c) index true (cw k - cw old)%R = Some cum1 ->
    sum1 = (csum c + (cw k - cw old))%R ->
    len1 = (clen c - (if decide (0 < old)%nat then 1 else 0) + (if decide (0 < k)%nat then 1 else 0))%Z ->
    cls_inv n (mkCls (<[index := k]> (cnt c)) cum1 len1 sum1).
  Proof.
    intros (Hlc & Hlu & Hc & Hsum & Hlen) Hi Hold Hup -> ->.
    destruct (update_up_ok n (cw k - cw old)%R (index + 1) (ccum c) index true Hlu Hi ltac:(lia)) as (c' & E & Hlc' & Hc').
    rewrite Hup in E. injection E as <-.
    set (c1 := mkCls (<[index := k]> (cnt c)) cum1 _ _).
    assert (Hw : forall j, j < n -> weight c1 j = if decide (j = index) then cw k else weight c j).
    { intros j Hj. unfold weight, c1. cbn [cnt]. destruct (decide (j = index)) as [->|].
      - by rewrite list_lookup_insert by lia.
      - by rewrite list_lookup_insert_ne. }
    assert (Hwo : weight c index = cw old) by (unfold weight; by rewrite Hold).
    unfold c1. split_and!; cbn [cnt ccum clen csum].
    - by rewrite insert_length.
    - done.
    - intros i x Hx. destruct (lookup_lt_is_Some_2 (ccum c) i) as [y Hy]; [rewrite Hlu, <- Hlc'; by eapply lookup_lt_Some|].
      rewrite (Hc' i y Hy) in Hx. injection Hx as <-. rewrite (Hc i y Hy). fold c1.
      rewrite (sumn_update n index (fun j => if decide (ancestor i j) then weight c1 j else 0%R)
        (fun j => if decide (ancestor i j) then weight c j else 0%R)); [|done|].
      + cbn beta. rewrite Hw by done. rewrite (decide_True (P := index = index)) by done. rewrite Hwo. f_equal.
        destruct (decide (ancestor i index)) as [Ha|Ha].
        * rewrite decide_True by by left. lra.
        * rewrite decide_False; [lra|]. intros [?|[_ ?]]; done.
      + intros j Hj Hne. rewrite Hw by done. by rewrite (decide_False (P := j = index)).
    - fold c1. rewrite (sumn_update n index (weight c1) (weight c)); [|done|].
      + rewrite Hw, decide_True by done. rewrite Hwo, Hsum. lra.
      + intros j Hj Hne. rewrite Hw by done. by rewrite decide_False.
    - unfold members. cbn [cnt]. rewrite (members_change n (cnt c) index k Hlc Hi), Hold, Hlen. done.
  Qed.

  Lemma up_some n c index v : cls_inv n c -> index < n -> exists cum1, update_up (index + 1) (ccum c) index true v = Some cum1.
  Proof. intros (_ & Hlu & _) Hi. destruct (update_up_ok n v (index + 1) (ccum c) index true Hlu Hi ltac:(lia)) as (c' & E & _). eauto. Qed.

  Lemma enter_ok n c index : cls_inv n c -> index < n -> cnt c !! index = Some 0 ->
    exists c', cls_enter c index = Some c' /\ cls_inv n c' /\ cnt c' = <[index := 1]> (cnt c).
  Proof.
    intros H Hi H0. unfold cls_enter. rewrite wr_Some by (destruct H as [-> _]; done). cbn [mbind option_bind].
    destruct (up_some n c index 1%R H Hi) as [cum1 E]. rewrite E. cbn [mbind option_bind]. eexists. split; [done|]. split; [|done].
    eapply (change_ok n c index 0 1); [done|done|done| | |].
    - rewrite cw_1, cw_0, Rminus_0_r. done.
    - rewrite cw_1, cw_0. lra.
    - rewrite decide_False by lia. rewrite decide_True by lia. lia.
  Qed.
  Lemma leave_ok n c index k : cls_inv n c -> index < n -> cnt c !! index = Some k -> k <> 0 ->
    exists c', cls_leave alpha c index = Some c' /\ cls_inv n c' /\ cnt c' = <[index := 0]> (cnt c).
  Proof.
    intros H Hi H0 Hk. unfold cls_leave, rd. rewrite H0. cbn [mbind option_bind]. rewrite (inv_pow_cw k) by done. cbn [mbind option_bind].
    rewrite wr_Some by (destruct H as [-> _]; done). cbn [mbind option_bind].
    destruct (up_some n c index (- cw k)%R H Hi) as [cum1 E]. rewrite E. cbn [mbind option_bind]. eexists. split; [done|]. split; [|done].
    eapply (change_ok n c index k 0); [done|done|done| | |].
    - rewrite cw_0. replace (0 - cw k)%R with (- cw k)%R by lra. done.
    - rewrite cw_0. lra.
    - rewrite decide_True by lia. rewrite decide_False by lia. lia.
  Qed.
  Lemma reset_ok n c index k : cls_inv n c -> index < n -> cnt c !! index = Some k -> k <> 0 ->
    exists c', cls_reset alpha c index = Some c' /\ cls_inv n c' /\ cnt c' = <[index := 1]> (cnt c).
  Proof.
    intros H Hi H0 Hk. unfold cls_reset, rd. rewrite H0. cbn [mbind option_bind]. rewrite (inv_pow_cw k) by done. cbn [mbind option_bind].
    rewrite wr_Some by (destruct H as [-> _]; done). cbn [mbind option_bind].
    destruct (up_some n c index (1 - cw k)%R H Hi) as [cum1 E]. rewrite E. cbn [mbind option_bind]. eexists. split; [done|]. split; [|done].
    eapply (change_ok n c index k 1); [done|done|done| | |].
    - by rewrite cw_1.
    - by rewrite cw_1.
    - rewrite !decide_True by lia. lia.
  Qed.
  Lemma bump_ok n c index k : cls_inv n c -> index < n -> cnt c !! index = Some k -> k <> 0 ->
    exists c', cls_bump alpha c index = Some c' /\ cls_inv n c' /\ cnt c' = <[index := k + 1]> (cnt c).
  Proof.
    intros H Hi H0 Hk. unfold cls_bump, rd. rewrite H0. cbn [mbind option_bind]. rewrite (inv_pow_cw k) by done. cbn [mbind option_bind].
    rewrite wr_Some by (destruct H as [-> _]; done). cbn [mbind option_bind]. rewrite (inv_pow_cw (k + 1)) by lia. cbn [mbind option_bind].
    destruct (up_some n c index (cw (k + 1) - cw k)%R H Hi) as [cum1 E]. rewrite E. cbn [mbind option_bind]. eexists. split; [done|]. split; [|done].
    eapply (change_ok n c index k (k + 1)); [done|done|done|exact E|lra|].
    rewrite !decide_True by lia. lia.
  Qed.

  (** The whole state: xs = rewards stored so far, u = uses of each slot since it was stored. *)
  Definition cnt_spec (o : option sign) (k : class) (u : nat) : nat :=
    match o, k with
    | Some Pos, Positive | Some Neg, Negative | Some Zero, Neutral => u + 1
    | _, _ => 0
    end.

  Record rinv (c : nat) (xs : list sign) (u : nat -> nat) (r : rstate) : Prop := {
    ri_cap : rcap r = c;
    ri_cur : rcur r = length xs mod c;
    ri_len : length (rews r) = c;
    ri_rews : forall k o, rews r !! k = Some o -> latest_in_slot c xs k o;
    ri_nan : forall k, rews r !! k <> Some (Some NaN);
    ri_cls : forall k, cls_inv c (class_state r k);
    ri_cnt : forall k j o, rews r !! j = Some o -> cnt (class_state r k) !! j = Some (cnt_spec o k (u j)) }.

  Lemma replace_ok n (p ng z : cls) index (old : option sign) (s : sign) u :
    cls_inv n p -> cls_inv n ng -> cls_inv n z -> index < n -> old <> Some NaN -> s <> NaN ->
    cnt p !! index = Some (cnt_spec old Positive u) ->
    cnt ng !! index = Some (cnt_spec old Negative u) ->
    cnt z !! index = Some (cnt_spec old Neutral u) ->
    exists p' n' z', match old with
        | None => add_reward p ng z index s
        | Some prev => replace_reward alpha p ng z index prev s
        end = Some (p', n', z') /\ cls_inv n p' /\ cls_inv n n' /\ cls_inv n z' /\
      cnt p' = <[index := cnt_spec (Some s) Positive 0]> (cnt p) /\
      cnt n' = <[index := cnt_spec (Some s) Negative 0]> (cnt ng) /\
      cnt z' = <[index := cnt_spec (Some s) Neutral 0]> (cnt z).
  Proof.
    intros Hp Hn Hz Hi Ho Hs Ep En Ez.
    destruct old as [[| | |]|]; try done; destruct s; try done; cbn [cnt_spec add_reward replace_reward] in *; cbn [plus];
    repeat match goal with
    | |- context [cls_enter ?c index] => destruct (enter_ok n c index) as (? & -> & ? & ?); [done|done|done|]
    | |- context [cls_leave alpha ?c index] => destruct (leave_ok n c index (u + 1)) as (? & -> & ? & ?); [done|done|done|lia|]
    | |- context [cls_reset alpha ?c index] => destruct (reset_ok n c index (u + 1)) as (? & -> & ? & ?); [done|done|done|lia|]
    end; cbn [mbind option_bind]; do 3 eexists; (split; [reflexivity|]); (split_and!; try done); by rewrite list_insert_id.
  Qed.

  Lemma rinv_init c : 0 < c -> rinv c [] (fun _ => 0) (init_rstate c).
  Proof.
    intros Hc. split; cbn.
    - done.
    - by rewrite Nat.mod_0_l by lia.
    - by rewrite replicate_length.
    - intros k o Hk. apply lookup_replicate in Hk as [-> _]. cbn. lia.
    - intros k Hk. apply lookup_replicate in Hk as [? _]. done.
    - assert (Hw : forall j, weight (init_cls c) j = 0%R).
      { intros j. unfold weight, init_cls. cbn. destruct (decide (j < c)).
        - by rewrite lookup_replicate_2.
        - rewrite lookup_ge_None_2; [done|]. rewrite replicate_length. lia. }
      assert (cls_inv c (init_cls c)).
      { split_and!; cbn.
        - by rewrite replicate_length.
        - by rewrite replicate_length.
        - intros i x Hx. apply lookup_replicate in Hx as [-> _]. symmetry. apply sumn_0. intros j Hj. destruct (decide _); [apply Hw|done].
        - symmetry. apply sumn_0. intros. apply Hw.
        - unfold members. cbn. assert (filter (fun j => 0 < default 0 (replicate c 0 !! j)) (seq 0 c) = []) as ->; [|done].
          
          assert (forall l, filter (fun j => 0 < default 0 (replicate c 0 !! j)) l = []) as ->; [|done].
          induction l as [|a l IH]; [done|]. rewrite filter_cons. rewrite decide_False; [done|].
          destruct (replicate c 0 !! a) as [q|] eqn:E; [apply lookup_replicate in E as [-> _]; cbn; lia|cbn; lia]. }
      intros [| |]; done.
    - intros k j o Hj. apply lookup_replicate in Hj as [-> Hj]. cbn. destruct k; cbn; by apply lookup_replicate_2.
  Qed.

  Lemma store_ok c xs u r s : 0 < c -> rinv c xs u r -> s <> NaN ->
    exists r', store_reward alpha r s = Some r' /\
      rinv c (xs ++ [s]) (fun j => if decide (length xs mod c = j) then 0 else u j) r'.
  Proof.
    intros Hc H Hs. unfold store_reward, rd.
    assert (Hcur : rcur r < c). { rewrite (ri_cur _ _ _ _ H). apply Nat.mod_upper_bound. lia. }
    destruct (lookup_lt_is_Some_2 (rews r) (rcur r)) as [old Ho]; [rewrite (ri_len _ _ _ _ H); lia|].
    rewrite Ho. cbn [mbind option_bind]. rewrite (wr_Some (rews r)) by (rewrite (ri_len _ _ _ _ H); done). cbn [mbind option_bind].
    destruct (replace_ok c (pos r) (neg r) (neu r) (rcur r) old s (u (rcur r))) as (p' & n' & z' & E & Ip & In & Iz & Cp & Cn & Cz).
    { apply (ri_cls _ _ _ _ H Positive). } { apply (ri_cls _ _ _ _ H Negative). } { apply (ri_cls _ _ _ _ H Neutral). }
    { done. } { intros ->. by apply (ri_nan _ _ _ _ H (rcur r)). } { done. }
    { apply (ri_cnt _ _ _ _ H Positive _ _ Ho). } { apply (ri_cnt _ _ _ _ H Negative _ _ Ho). } { apply (ri_cnt _ _ _ _ H Neutral _ _ Ho). }
    rewrite E. cbn [mbind option_bind fst snd]. eexists. split; [reflexivity|].
    assert (Hlk : forall k, length (cnt (class_state r k)) = c) by (intros k; apply (ri_cls _ _ _ _ H k)).
    split; cbn [rcap rcur rews].
    - apply H.
    - rewrite (ri_cap _ _ _ _ H), (ri_cur _ _ _ _ H), app_length. cbn. by rewrite Nat.add_mod_idemp_l by lia.
    - rewrite insert_length. apply H.
    - intros k o' Hk. destruct (decide (k = rcur r)) as [->|Hne].
      + rewrite list_lookup_insert in Hk by (rewrite (ri_len _ _ _ _ H); done). simplify_eq. cbn.
        exists (length xs). rewrite lookup_app_r by lia. replace (length xs - length xs) with 0 by lia.
        split; [done|]. split; [by rewrite (ri_cur _ _ _ _ H)|]. intros j' Hj'. rewrite app_length in Hj'. cbn in Hj'. lia.
      + rewrite list_lookup_insert_ne in Hk by done. apply latest_add; [done| |by rewrite <- (ri_cur _ _ _ _ H)].
        by apply (ri_rews _ _ _ _ H).
    - intros k Hk. destruct (decide (k = rcur r)) as [->|Hne].
      + rewrite list_lookup_insert in Hk by (rewrite (ri_len _ _ _ _ H); done). by simplify_eq.
      + rewrite list_lookup_insert_ne in Hk by done. by apply (ri_nan _ _ _ _ H k).
    - intros [| |]; done.
    - intros k j o Hj. rewrite <- (ri_cur _ _ _ _ H).
      assert (Hset : cnt (class_state (mkR (rcap r) ((rcur r + 1) mod rcap r) (<[rcur r:=Some s]> (rews r)) p' n' z') k)
         = <[rcur r := cnt_spec (Some s) k 0]> (cnt (class_state r k))) by (destruct k; done).
      rewrite Hset. destruct (decide (rcur r = j)) as [<-|Hne].
      + rewrite list_lookup_insert in Hj by (rewrite (ri_len _ _ _ _ H); done). injection Hj as <-.
        apply list_lookup_insert. by rewrite Hlk.
      + rewrite list_lookup_insert_ne in Hj by done. rewrite list_lookup_insert_ne by done. by apply (ri_cnt _ _ _ _ H).
  Qed.

  Lemma occupied c xs u r j : 0 < c -> rinv c xs u r -> j < stored c (length xs) -> exists s, rews r !! j = Some (Some s) /\ s <> NaN.
  Proof.
    intros Hc H Hj. unfold stored in Hj. destruct (lookup_lt_is_Some_2 (rews r) j) as [o Ho]; [rewrite (ri_len _ _ _ _ H); lia|].
    destruct o as [s|].
    - exists s. split; [done|]. intros ->. by apply (ri_nan _ _ _ _ H j).
    - exfalso. apply (ri_rews _ _ _ _ H j None Ho j); [lia|]. apply Nat.mod_small. lia.
  Qed.

  Lemma use_ok c xs u r slot : 0 < c -> rinv c xs u r -> slot < stored c (length xs) ->
    exists r', use_slot alpha r slot = Some r' /\
      rinv c xs (fun j => if decide (slot = j) then u j + 1 else u j) r'.
  Proof.
    intros Hc H Hs. destruct (occupied c xs u r slot Hc H Hs) as (s & Ho & Hnan).
    unfold use_slot, rd. rewrite Ho. cbn [mbind option_bind].
    assert (Hlt : slot < c) by (unfold stored in Hs; lia).
    assert (Hlk : forall k, length (cnt (class_state r k)) = c) by (intros k; apply (ri_cls _ _ _ _ H k)).
    assert (Hgo : forall (r' : rstate), rcap r' = rcap r -> rcur r' = rcur r -> rews r' = rews r ->
       (forall k, cls_inv c (class_state r' k)) ->
       (forall k, cnt (class_state r' k) = <[slot := cnt_spec (Some s) k (u slot + 1)]> (cnt (class_state r k))) ->
       rinv c xs (fun j => if decide (slot = j) then u j + 1 else u j) r').
    { intros r' E1 E2 E3 E4 E5. split.
      - rewrite E1. apply H.
      - rewrite E2. apply H.
      - rewrite E3. apply H.
      - rewrite E3. apply H.
      - rewrite E3. apply H.
      - done.
      - intros k j o Hj. rewrite E3 in Hj. rewrite E5. destruct (decide (slot = j)) as [<-|Hne].
        + rewrite Ho in Hj. injection Hj as <-. apply list_lookup_insert. by rewrite Hlk.
        + rewrite list_lookup_insert_ne by done. by apply (ri_cnt _ _ _ _ H). }
    pose proof (ri_cnt _ _ _ _ H Positive _ _ Ho) as Ep. pose proof (ri_cnt _ _ _ _ H Negative _ _ Ho) as En.
    pose proof (ri_cnt _ _ _ _ H Neutral _ _ Ho) as Ez.
    pose proof (ri_cls _ _ _ _ H Positive) as Ip. pose proof (ri_cls _ _ _ _ H Negative) as In. pose proof (ri_cls _ _ _ _ H Neutral) as Iz.
    destruct s; try done; cbn [class_state cnt_spec] in *;
    match goal with
    | |- context [cls_bump alpha ?c0 slot] => destruct (bump_ok c c0 slot (u slot + 1)) as (c1 & -> & ? & ?); [done|done|done|lia|]
    end; cbn [mbind option_bind]; eexists; (split; [reflexivity|]); apply Hgo; try done;
    intros [| |]; cbn [class_state pos neg neu]; try done; by rewrite list_insert_id.
  Qed.

  Fixpoint uses_fun (c m : nat) (u : nat -> nat) (h : list rop) : nat -> nat :=
    match h with
    | [] => u
    | Store _ :: h => uses_fun c (m + 1) (fun j => if decide (m mod c = j) then 0 else u j) h
    | Use s :: h => uses_fun c m (fun j => if decide (s = j) then u j + 1 else u j) h
    end.
  Lemma uses_fun_spec c h : forall m u j, uses_fun c m u h j = uses_since c m j (u j) h.
  Proof. induction h as [|[s|s] h IH]; intros m u j; cbn; [done|rewrite IH; done|rewrite IH; done]. Qed.

  Lemma rrun_ok c h : 0 < c -> forall xs u r, rinv c xs u r -> valid_rops c (length xs) h -> ~ NaN ∈ rewards_of h ->
    exists r', rrun alpha r h = Some r' /\ rinv c (xs ++ rewards_of h) (uses_fun c (length xs) u h) r'.
  Proof.
    intros Hc. induction h as [|[s|slot] h IH]; intros xs u r H HV HN; cbn in *.
    - exists r. rewrite app_nil_r. done.
    - apply not_elem_of_cons in HN as [HN1 HN2].
      destruct (store_ok c xs u r s Hc H) as (r' & E & H'); [done|]. rewrite E. cbn [mbind option_bind].
      destruct (IH _ _ _ H') as (r'' & E' & H''); [by rewrite app_length|done|].
      exists r''. split; [done|]. rewrite <- app_assoc in H''. rewrite app_length in H''. done.
    - destruct HV as [HV1 HV2]. destruct (use_ok c xs u r slot Hc H HV1) as (r' & E & H'). rewrite E. cbn [mbind option_bind].
      by apply IH.
  Qed.
End rewards.
