From Verif Require Import RealSum Heap_Model Heap_Proofs Cumul_Model Cumul_Spec Cumul_Proofs Replay_Spec Rewards_Spec Rewards_Model Rewards_Proofs Rain_Spec Rain_Model Rain_Proofs.
Open Scope nat_scope.

(** * The choice of the class *)
Lemma powc_share beta t l : beta <> 0%R -> powc (raw_share t (Z.of_nat l)) beta = class_weight beta t l.
Proof.
  intros Hb. unfold powc, raw_share, class_weight. destruct (Z.ltb_spec (Z.of_nat t) (Z.of_nat l)) as [H|H].
  - rewrite <- INR_IZR_INZ. assert (0 < INR l)%R by (apply lt_0_INR; lia).
    rewrite (decide_True (P := t < l)) by lia. unfold Rdiv. rewrite Rmult_1_l. rewrite decide_False; [done|]. apply Rinv_neq_0_compat. lra.
  - rewrite decide_True by done. rewrite decide_False by done. by rewrite (decide_False (P := t < l)) by lia.
Qed.
Lemma class_weight_pos beta t l : t < l -> (0 < class_weight beta t l)%R.
Proof. intros H. unfold class_weight. rewrite decide_True by done. apply exp_pos. Qed.
Lemma class_weight_zero beta t l : ~ t < l -> class_weight beta t l = 0%R.
Proof. intros H. unfold class_weight. by rewrite decide_False. Qed.
Lemma class_weight_nonneg beta t l : (0 <= class_weight beta t l)%R.
Proof. unfold class_weight. case_decide; [left; apply exp_pos|lra]. Qed.

Definition by_class {A} (n p z : A) (k : class) : A := match k with Negative => n | Positive => p | Neutral => z end.

Lemma pick_spec beta (t l : class -> nat) samp : beta <> 0%R ->
  let wt k := class_weight beta (t k) (l k) in
  (exists k, t k < l k) -> (0 <= samp <= 1)%R ->
  let k := pick_class beta (t Negative) (t Positive) (t Neutral) (Z.of_nat (l Negative)) (Z.of_nat (l Positive)) (Z.of_nat (l Neutral)) samp in
  t k < l k /\ ((0 < samp)%R -> class_interval wt (samp * suml (map wt class_order)) k).
Proof.
  intros Hb wt [k0 Hk0] Hs. unfold pick_class. rewrite !powc_share by done.
  fold (wt Negative) (wt Positive) (wt Neutral). cbv zeta. set (T := (wt Negative + wt Positive + wt Neutral)%R).
  assert (Hnn : forall k, (0 <= wt k)%R) by (intros k; apply class_weight_nonneg).
  assert (HT : (0 < T)%R).
  { pose proof (Hnn Negative). pose proof (Hnn Positive). pose proof (Hnn Neutral). pose proof (class_weight_pos beta _ _ Hk0) as Hp.
    fold (wt k0) in Hp. unfold T. destruct k0; lra. }
  assert (HTs : suml (map wt class_order) = T) by (unfold T, class_order; cbn [map]; rewrite !suml_cons, suml_nil; lra).
  rewrite HTs.
  assert (Hcmp : forall x y, (x <= y / T <-> x * T <= y)%R).
  { intros x y. split; intros H.
    - apply (Rmult_le_compat_r T) in H; [|lra]. unfold Rdiv in H. rewrite Rmult_assoc, Rinv_l in H by lra. lra.
    - apply (Rmult_le_reg_r T); [done|]. unfold Rdiv. rewrite Rmult_assoc, Rinv_l by lra. lra. }
  assert (Hcmp2 : forall y z, (samp - y / T <= z / T <-> samp * T <= y + z)%R).
  { intros y z. rewrite Hcmp. replace ((samp - y / T) * T)%R with (samp * T - y)%R by (field; lra). lra. }
  assert (HsT : (0 <= samp * T <= T)%R) by (split; [apply Rmult_le_pos; lra|rewrite <- (Rmult_1_l T) at 2; apply Rmult_le_compat_r; lra]).
  assert (HsT' : (0 < samp -> 0 < samp * T)%R) by (intros; by apply Rmult_lt_0_compat).
  assert (Hneg : (0 < samp)%R -> (samp * T <= wt Negative)%R -> class_interval wt (samp * T) Negative).
  { intros H0 H. exists [], [Positive; Neutral]. split; [done|]. cbn [map]. rewrite suml_nil. pose proof (HsT' H0). lra. }
  assert (Hpos : (wt Negative < samp * T <= wt Negative + wt Positive)%R -> class_interval wt (samp * T) Positive).
  { intros H. exists [Negative], [Neutral]. split; [done|]. cbn [map]. rewrite suml_cons, suml_nil. lra. }
  assert (Hneu : (wt Negative + wt Positive < samp * T)%R -> class_interval wt (samp * T) Neutral).
  { intros H. exists [Negative; Positive], []. split; [done|]. cbn [map]. rewrite !suml_cons, suml_nil. unfold T in *. lra. }
  assert (Hneu2 : (wt Negative + wt Positive < samp * T)%R -> t Neutral < l Neutral).
  { intros H. destruct (decide (t Neutral < l Neutral)) as [|Hn]; [done|]. exfalso.
    pose proof (class_weight_zero beta _ _ Hn) as Hz. fold (wt Neutral) in Hz. unfold T in *. lra. }
  assert (Hz : forall k, ~ t k < l k -> wt k = 0%R) by (intros k Hk; by apply class_weight_zero).
  destruct (Z.ltb_spec (Z.of_nat (t Negative)) (Z.of_nat (l Negative))) as [H1|H1].
  - destruct (Rle_dec samp (wt Negative / T)) as [H2|H2].
    + split; [lia|]. intros. apply Hneg; [done|]. by apply Hcmp.
    + assert (H2' : (wt Negative < samp * T)%R) by (apply Rnot_le_lt; intros ?; apply H2, Hcmp; done).
      destruct (Z.ltb_spec (Z.of_nat (t Positive)) (Z.of_nat (l Positive))) as [H3|H3].
      * destruct (Rle_dec (samp - wt Negative / T) (wt Positive / T)) as [H4|H4].
        -- split; [lia|]. intros. apply Hpos. apply Hcmp2 in H4. lra.
        -- assert (H4' : (wt Negative + wt Positive < samp * T)%R) by (apply Rnot_le_lt; intros ?; apply H4, Hcmp2; done).
           split; [by apply Hneu2|by intros; apply Hneu].
      * assert (H4' : (wt Negative + wt Positive < samp * T)%R) by (rewrite (Hz Positive) by lia; lra).
        split; [by apply Hneu2|by intros; apply Hneu].
  - assert (Hn0 : wt Negative = 0%R) by (apply Hz; lia).
    destruct (Z.ltb_spec (Z.of_nat (t Positive)) (Z.of_nat (l Positive))) as [H3|H3].
    + destruct (Rle_dec samp (wt Positive / T)) as [H4|H4].
      * split; [lia|]. intros H0. apply Hpos. apply Hcmp in H4. pose proof (HsT' H0). lra.
      * assert (H4' : (wt Negative + wt Positive < samp * T)%R) by (apply Rnot_le_lt; intros ?; apply H4, Hcmp; lra).
        split; [by apply Hneu2|by intros; apply Hneu].
    + assert (Hp0 : wt Positive = 0%R) by (apply Hz; lia). split.
      * destruct k0; [lia|lia|done].
      * intros H0. apply Hneu. pose proof (HsT' H0). lra.
Qed.

(** * The batch *)
Section batch.
  Context (alpha beta : R) (n : nat) (r : rstate).
  Hypothesis Hcap : rcap r = n.
  Hypothesis Hn : 0 < n.
  Hypothesis Hcls : forall k, cls_inv alpha n (class_state r k).
  Hypothesis Hdisj : forall k k' j m, cnt (class_state r k) !! j = Some m -> m <> 0 -> k' <> k ->
    cnt (class_state r k') !! j = Some 0.

  Definition ws (k : class) : list R := map (cw alpha) (cnt (class_state r k)).
  Definition len (k : class) : nat := members (class_state r k) n.
  Definition taken (b : bst) (k : class) : list nat := ptaken (bpart b k).

  Record binv (b : bst) : Prop := {
    bi_nodup : forall k, NoDup (taken b k);
    bi_in : forall k t, t ∈ taken b k -> exists m, cnt (class_state r k) !! t = Some m /\ m <> 0;
    bi_sum : forall k, psum (bpart b k) = suml (map (free_weight (ws k) (taken b k)) (seq 0 n));
    bi_batch : bbatch b ≡ₚ taken b Negative ++ taken b Positive ++ taken b Neutral }.

  Lemma wt_weight k j : wt (ws k) j = weight alpha (class_state r k) j.
  Proof using. unfold wt, ws, weight. rewrite list_lookup_fmap. destruct (cnt (class_state r k) !! j); [done|]. cbn. by rewrite cw_0. Qed.

  Lemma ws_len k : length (ws k) = n.
  Proof using Hcap Hn Hcls Hdisj. unfold ws. rewrite map_length. apply (Hcls k). Qed.

  Lemma taken_lt b k t : binv b -> t ∈ taken b k -> t < n.
  Proof using Hcap Hn Hcls Hdisj.
    intros H Ht. destruct (bi_in b H k t Ht) as (m & Hm & _). apply lookup_lt_Some in Hm. destruct (Hcls k) as [<- _]. done.
  Qed.

  Lemma free_member b k : binv b -> length (taken b k) < len k ->
    exists j m, j < n /\ j ∉ taken b k /\ cnt (class_state r k) !! j = Some m /\ m <> 0.
  Proof using Hcap Hn Hcls Hdisj.
    intros H Hlt. set (M := filter (fun j => 0 < default 0 (cnt (class_state r k) !! j)) (seq 0 n)).
    assert (HM : length M = len k) by done.
    destruct (decide (Forall (fun j => j ∈ taken b k) M)) as [Hall|Hex].
    - exfalso. assert (length M <= length (taken b k)); [|lia].
      apply NoDup_incl_length; [apply NoDup_ListNoDup, list.NoDup_filter, NoDup_ListNoDup, seq_NoDup|].
      intros x Hx. apply elem_of_list_In in Hx. apply elem_of_list_In. rewrite list.Forall_forall in Hall. by apply Hall.
    - apply not_Forall_Exists in Hex; [|apply _]. apply list.Exists_exists in Hex as (j & Hj & Hnj). cbn in Hnj.
      unfold M in Hj. apply elem_of_list_filter in Hj as [Hj1 Hj2]. apply elem_of_seq in Hj2.
      destruct (cnt (class_state r k) !! j) as [m|] eqn:E; cbn in Hj1; [|lia]. exists j, m. split_and!; [lia|done|done|lia].
  Qed.

  Lemma first_binv : binv (first_bst r).
  Proof using Hcap Hn Hcls Hdisj.
    split.
    - intros []; constructor.
    - intros [] t Ht; cbn in Ht; set_solver.
    - intros k. assert (E : psum (bpart (first_bst r) k) = csum (class_state r k)) by by destruct k. rewrite E.
      assert (E2 : taken (first_bst r) k = []) by by destruct k. rewrite E2. destruct (Hcls k) as (_ & _ & _ & -> & _). rewrite suml_seq.
      apply sumn_ext. intros j Hj. rewrite <- wt_weight. unfold free_weight. rewrite decide_False by set_solver. done.
    - done.
  Qed.

  Lemma draw_ok b k p : binv b -> length (taken b k) < len k -> (0 < p <= 1)%R ->
    exists b' v, draw_in alpha r b k p = Some b' /\ binv b' /\ bbatch b' = bbatch b ++ [v] /\
      taken b' k = taken b k ++ [v] /\ (forall k', k' <> k -> taken b' k' = taken b k') /\
      v < n /\ v ∉ taken b k /\ (exists m, cnt (class_state r k) !! v = Some m /\ m <> 0) /\
      interval_of (ws k) (taken b k) (pre n n 0) (p * suml (map (free_weight (ws k) (taken b k)) (seq 0 n))) v.
  Proof using Hcap Hn Hcls Hdisj.
    intros H Hlt Hp. destruct (free_member b k H Hlt) as (j & m & Hj & Hjt & Hjm & Hm).
    set (S := suml (map (free_weight (ws k) (taken b k)) (seq 0 n))).
    assert (Hfw0 : forall i, (0 <= free_weight (ws k) (taken b k) i)%R).
    { intros i. unfold free_weight. case_decide; [lra|]. change (default 0%R (ws k !! i)) with (wt (ws k) i). rewrite wt_weight. apply cw_nonneg. }
    assert (HS : (0 < S)%R).
    { unfold S. rewrite suml_seq. eapply Rlt_le_trans; [|apply (sumn_ge_term n (free_weight (ws k) (taken b k)) j Hj); intros; apply Hfw0].
      unfold free_weight. rewrite decide_False by done. unfold ws. rewrite list_lookup_fmap, Hjm. cbn. by apply cw_pos. }
    destruct (Hcls k) as (Hl1 & Hl2 & Hcum & Hsum & Hlen).
    assert (HC : forall i x, ccum (class_state r k) !! i = Some x -> x = suml (map (wt (ws k)) (elems n (ancestor i)))).
    { intros i x Hx. rewrite (Hcum i x Hx), suml_indicator. apply sumn_ext. intros i' _. by rewrite wt_weight. }
    assert (HP : pre n n 0 ≡ₚ seq 0 n).
    { apply NoDup_Permutation; [apply NoDup_pre; lia|apply NoDup_ListNoDup, seq_NoDup|].
      intros i. rewrite <- (pre_perm n). rewrite !elem_of_pre by lia. done. }
    destruct (sample_rewards_ok alpha n (ccum (class_state r k)) (cnt (class_state r k)) (taken b k) Hl1 Hl2 HC) with (S := S) (fuel := n + 1) (i := 0) (rv := p) as (v & Ev & Hv & Hvt & HI).
    { intros t Ht. by eapply taken_lt. }
    { done. }
    { lia. }
    { lia. }
    { lra. }
    { rewrite Nat.sub_0_r. unfold mass. change (map (cw alpha) (cnt (class_state r k))) with (ws k).
      rewrite (suml_perm _ _ (Permutation_map (free_weight (ws k) (taken b k)) HP)). fold S.
      rewrite <- (Rmult_1_l S) at 2. apply Rmult_le_compat_r; lra. }
    rewrite Nat.sub_0_r in HI. change (map (cw alpha) (cnt (class_state r k))) with (ws k) in HI.
    destruct (lookup_lt_is_Some_2 (cnt (class_state r k)) v) as [mv Hmv]; [lia|].
    assert (Hmv0 : mv <> 0).
    { intros ->. destruct HI as (bf & af & _ & HI). unfold free_weight in HI at 3. rewrite decide_False in HI by done.
      unfold ws in HI at 3. rewrite list_lookup_fmap, Hmv in HI. cbn in HI. rewrite cw_0 in HI. lra. }
    assert (Hvb : v ∉ bbatch b).
    { rewrite (bi_batch b H), !elem_of_app. intros Hin.
      assert (Hk : exists k', v ∈ taken b k') by (destruct Hin as [?|[?|?]]; eauto). destruct Hk as [k' Hk'].
      destruct (decide (k' = k)) as [->|Hne]; [done|]. destruct (bi_in b H k' v Hk') as (m' & Hm' & Hm'0).
      rewrite (Hdisj k k' v mv Hmv Hmv0 Hne) in Hm'. congruence. }
    unfold draw_in. cbv zeta. rewrite Hcap, (bi_sum b H k). fold S. change (ptaken (bpart b k)) with (taken b k). rewrite Ev. cbn [mbind option_bind].
    unfold inside. rewrite (bool_decide_eq_false_2 (v ∈ bbatch b)) by done.
    rewrite (Hmv : rd (cnt (class_state r k)) v = Some mv). cbn [mbind option_bind]. rewrite inv_pow_cw by done. cbn [mbind option_bind].
    set (q := mkPart _ _). eexists _, v. split; [reflexivity|].
    assert (Hq : q = mkPart (taken b k ++ [v]) (suml (map (free_weight (ws k) (taken b k ++ [v])) (seq 0 n)))).
    { unfold q. f_equal. unfold S. rewrite !suml_seq.
      rewrite (sumn_update n v (free_weight (ws k) (taken b k ++ [v])) (free_weight (ws k) (taken b k))); [|done|].
      - assert (free_weight (ws k) (taken b k ++ [v]) v = 0%R) as -> by (unfold free_weight; rewrite decide_True by set_solver; done).
        assert (free_weight (ws k) (taken b k) v = cw alpha mv) as ->; [|lra].
        unfold free_weight. rewrite decide_False by done. unfold ws. rewrite list_lookup_fmap, Hmv. done.
      - intros i Hi Hne. unfold free_weight. destruct (decide (i ∈ taken b k)); [rewrite decide_True by set_solver|rewrite decide_False by set_solver]; done. }
    rewrite Hq. clear Hq q.
    set (b' := match k with Positive => _ | Negative => _ | Neutral => _ end).
    assert (Hpk : bpart b' k = mkPart (taken b k ++ [v]) (suml (map (free_weight (ws k) (taken b k ++ [v])) (seq 0 n)))) by by destruct k.
    assert (Hpo : forall k', k' <> k -> bpart b' k' = bpart b k') by (intros k' Hne; destruct k, k'; done).
    assert (Htk : taken b' k = taken b k ++ [v]) by (unfold taken; by rewrite Hpk).
    assert (Hto : forall k', k' <> k -> taken b' k' = taken b k') by (intros k' Hne; unfold taken; by rewrite Hpo).
    assert (Hbb : bbatch b' = bbatch b ++ [v]) by by destruct k.
    split; [|split; [done|split; [done|split; [done|split; [done|split; [done|split; [eauto|exact HI]]]]]]].
    split.
    - intros k'. destruct (decide (k' = k)) as [->|Hne]; [|rewrite Hto by done; apply H].
      rewrite Htk. apply list.NoDup_app. split; [apply H|]. split; [set_solver|]. apply NoDup_singleton.
    - intros k' t. destruct (decide (k' = k)) as [->|Hne]; [|rewrite Hto by done; apply H].
      rewrite Htk, elem_of_app, elem_of_list_singleton. intros [?| ->]; [by apply H|eauto].
    - intros k'. destruct (decide (k' = k)) as [->|Hne]; [by rewrite Hpk, Htk|]. rewrite Hpo, Hto by done. apply H.
    - rewrite Hbb, (bi_batch b H). destruct k; rewrite Htk, !Hto by done; solve_Permutation.
  Qed.

  (** one iteration of the loop *)
  Lemma step_ok b d : beta <> 0%R -> binv b -> (exists k, length (taken b k) < len k) -> (0 <= d.1 <= 1)%R -> (0 < d.2 <= 1)%R ->
    exists b' k v, draw_step alpha beta r b d = Some b' /\ binv b' /\ bbatch b' = bbatch b ++ [v] /\
      ((0 < d.1)%R -> let cwt k := class_weight beta (length (taken b k)) (len k) in class_interval cwt (d.1 * suml (map cwt class_order)) k) /\
      (forall k', length (taken b' k') = length (taken b k') + if decide (k' = k) then 1 else 0) /\
      v < n /\ (exists m, cnt (class_state r k) !! v = Some m /\ m <> 0) /\
      interval_of (ws k) (taken b k) (pre n n 0) (d.2 * suml (map (free_weight (ws k) (taken b k)) (seq 0 n))) v.
  Proof using Hcap Hn Hcls Hdisj.
    intros Hb H Hex H1 H2. destruct (pick_spec beta (fun k => length (taken b k)) len d.1 Hb Hex H1) as [Hfree HI].
    assert (Hclen : forall k, clen (class_state r k) = Z.of_nat (len k)) by (intros k; apply (Hcls k)).
    pose proof (Hclen Negative) as En. pose proof (Hclen Positive) as Ep. pose proof (Hclen Neutral) as Ez. cbn [class_state] in En, Ep, Ez.
    unfold draw_step. rewrite En, Ep, Ez. change (ptaken (bneg b)) with (taken b Negative).
    change (ptaken (bpos b)) with (taken b Positive). change (ptaken (bneu b)) with (taken b Neutral). cbn zeta in Hfree, HI.
    set (k := pick_class _ _ _ _ _ _ _ _) in *. destruct (draw_ok b k d.2 H Hfree H2) as (b' & v & E & H' & Hbb & Htk & Hto & Hv & Hvt & Hm & HI2).
    exists b', k, v. split; [done|]. split; [done|]. split; [done|]. split; [done|]. split; [|done].
    intros k'. case_decide as Hk; [subst k'; rewrite Htk, app_length; done|]. rewrite Hto by done. lia.
  Qed.

  Definition total_taken (b : bst) : nat := length (taken b Negative) + length (taken b Positive) + length (taken b Neutral).
  Definition total_len : nat := len Negative + len Positive + len Neutral.

  Lemma binv_total b : binv b -> length (bbatch b) = total_taken b.
  Proof using Hcap Hn Hcls Hdisj. intros H. rewrite (Permutation_length (bi_batch b H)), !app_length. unfold total_taken. lia. Qed.

  Lemma steps_ok draws : beta <> 0%R -> Forall (fun d => 0 <= d.1 <= 1 /\ 0 < d.2 <= 1)%R draws -> forall b, binv b ->
    total_taken b + length draws <= total_len ->
    exists b', draw_steps alpha beta r b draws = Some b' /\ binv b' /\ total_taken b' = total_taken b + length draws.
  Proof using Hcap Hn Hcls Hdisj.
    intros Hb HF. induction HF as [|d ds [H1 H2] HF IH]; intros b H Hlen; cbn [draw_steps length] in *.
    - exists b. split; [done|]. split; [done|]. lia.
    - destruct (step_ok b d Hb H) as (b' & k & v & E & H' & Hbb & _ & Hc & _); [|done|done|].
      { unfold total_taken, total_len in Hlen. destruct (decide (length (taken b Negative) < len Negative)); [eauto|].
        destruct (decide (length (taken b Positive) < len Positive)); [eauto|]. exists Neutral. lia. }
      rewrite E. cbn [mbind option_bind].
      assert (Ht : total_taken b' = total_taken b + 1) by (unfold total_taken; rewrite !Hc; destruct k; repeat case_decide; try congruence; lia).
      destruct (IH b' H') as (b'' & E' & H'' & Ht'); [lia|]. exists b''. split; [done|]. split; [done|]. lia.
  Qed.

  Lemma binv_nodup b : binv b -> NoDup (bbatch b).
  Proof using Hcap Hn Hcls Hdisj.
    intros H. rewrite (bi_batch b H).
    assert (Hd : forall k k' x, k' <> k -> x ∈ taken b k -> x ∈ taken b k' -> False).
    { intros k k' x Hne Hx Hx'. destruct (bi_in b H k x Hx) as (m & Hm & Hm0). destruct (bi_in b H k' x Hx') as (m' & Hm' & Hm0').
      rewrite (Hdisj k k' x m Hm Hm0 Hne) in Hm'. congruence. }
    apply list.NoDup_app. split; [apply H|]. split.
    - intros x Hx. rewrite elem_of_app. intros [Hx'|Hx']; (eapply Hd; [|exact Hx|exact Hx']; done).
    - apply list.NoDup_app. split; [apply H|]. split; [|apply H]. intros x Hx Hx'. by eapply (Hd Positive Neutral).
  Qed.
End batch.

Lemma draw_steps_app alpha beta r ds ds' : forall b, draw_steps alpha beta r b (ds ++ ds') =
  (b' ← draw_steps alpha beta r b ds; draw_steps alpha beta r b' ds').
Proof. induction ds as [|d ds IH]; intros b; cbn; [done|]. destruct (draw_step alpha beta r b d); cbn; [apply IH|done]. Qed.
