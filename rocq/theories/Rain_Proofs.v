From Verif Require Import RealSum Heap_Model Heap_Proofs Cumul_Model Cumul_Spec Cumul_Proofs Replay_Spec Rewards_Spec Rewards_Model Rewards_Proofs Rain_Spec Rain_Model.
Open Scope nat_scope.

Lemma cw_pos alpha k : k <> 0 -> (0 < cw alpha k)%R.
Proof. intros H. unfold cw. rewrite decide_False by done. apply exp_pos. Qed.
Lemma cw_nonneg alpha k : (0 <= cw alpha k)%R.
Proof. unfold cw. case_decide; [lra|left; apply exp_pos]. Qed.

Section sampling.
  Context (alpha : R) (n : nat) (cum : list R) (cnts : list nat) (taken : list nat).
  Local Notation w := (map (cw alpha) cnts).
  Hypothesis Hlw : length cnts = n.
  Hypothesis Hlc : length cum = n.
  Hypothesis Hcum : forall i x, cum !! i = Some x -> x = suml (map (wt w) (elems n (ancestor i))).
  Hypothesis Htaken : forall t, t ∈ taken -> t < n.
  Local Notation fw := (free_weight w taken).

  Lemma w_len : length w = n.
  Proof using Hlw. by rewrite map_length. Qed.

  Lemma sub_rewards_eq i : subtracted_rewards alpha i cnts taken = subtracted_value i w taken.
  Proof using Hlw Htaken.
    clear Hcum Hlc. unfold subtracted_rewards, subtracted_value. apply for_loop_ext. intros k s Hk.
    unfold rd. destruct (taken !! k) as [t|] eqn:Et; [|done]. cbn [mbind option_bind]. destruct (inside _ t); [done|].
    assert (Ht : t < n) by (apply Htaken, elem_of_list_lookup; eauto).
    destruct (lookup_lt_is_Some_2 cnts t) as [c Hc]; [lia|]. rewrite Hc. cbn [mbind option_bind].
    rewrite list_lookup_fmap, Hc. cbn [fmap option_fmap option_map mbind option_bind].
    destruct (Nat.ltb_spec 0 c) as [Hp|Hz]; cbn [andb].
    - destruct (value_is_child t i); [|done]. rewrite inv_pow_cw by lia. done.
    - assert (c = 0) as -> by lia. rewrite cw_0, Rplus_0_r. by destruct (value_is_child t i).
  Qed.

  Lemma fw_lookup i c : cnts !! i = Some c -> fw i = if inside taken i then 0%R else cw alpha c.
  Proof using.
    intros Hc. unfold free_weight, inside. rewrite list_lookup_fmap, Hc. cbn. case_decide as H; [by rewrite bool_decide_eq_true_2|by rewrite bool_decide_eq_false_2].
  Qed.

  Context (S : R).
  Hypothesis HS : (0 < S)%R.

  Lemma sample_rewards_ok : forall fuel i rv, i < n -> n - i < fuel -> (0 < rv)%R -> (rv * S <= mass w taken (pre (n - i) n i))%R ->
    exists k, sample_rewards alpha fuel cum cnts taken n S i rv = Some k /\ k < n /\ k ∉ taken /\
      interval_of w taken (pre (n - i) n i) (rv * S) k.
  Proof using Hlw Hlc Hcum Htaken HS.
    pose proof w_len as Hwl.
    induction fuel as [|fuel IH]; intros i rv Hi Hf Hrv Hle; [lia|]. cbn [sample_rewards].
    rewrite decide_False by lia.
    destruct (lookup_lt_is_Some_2 cnts i) as [ci Hci]; [lia|]. rewrite (Hci : rd cnts i = Some ci). cbn [mbind option_bind]. cbv zeta.
    pose proof (fw_lookup i ci Hci) as Hfi.
    assert (Hv : (if (0 <? ci) && negb (inside taken i) then x ← inv_pow alpha ci; Some (x / S)%R else Some 0%R) = Some (fw i / S)%R).
    { rewrite Hfi. destruct (Nat.ltb_spec 0 ci) as [Hp|Hz]; cbn [andb].
      - destruct (inside taken i); cbn [negb]; [f_equal; lra|]. rewrite inv_pow_cw by lia. done.
      - assert (ci = 0) as -> by lia. rewrite cw_0. destruct (inside taken i); f_equal; lra. }
    rewrite Hv. cbn [mbind option_bind].
    assert (Hcmp : forall y, (rv <= y / S <-> rv * S <= y)%R).
    { intros y. split; intros H.
      - apply (Rmult_le_compat_r S) in H; [|lra]. unfold Rdiv in H. rewrite Rmult_assoc, Rinv_l in H by lra. lra.
      - apply (Rmult_le_reg_r S); [done|]. unfold Rdiv. rewrite Rmult_assoc, Rinv_l by lra. lra. }
    assert (HrS : (0 < rv * S)%R) by (apply Rmult_lt_0_compat; done).
    destruct (decide ((rv * S <= fw i)%R)) as [Hr|Hr].
    { (* the element itself *)
      destruct (inside taken i) eqn:Ein; [exfalso; rewrite Hfi in Hr; lra|].
      destruct (Nat.ltb_spec 0 ci) as [Hp|Hz]; [|exfalso; assert (ci = 0) as -> by lia; rewrite cw_0 in Hfi; lra]. cbn [andb negb].
      destruct (Rle_dec rv (fw i / S)) as [_|Hn]; [|exfalso; by apply Hn, Hcmp].
      exists i. split; [done|]. split; [done|]. split; [by apply bool_decide_eq_false in Ein|].
      destruct (n - i) as [|f] eqn:Ef; [lia|]. cbn [pre]. rewrite decide_True by done.
      exists [], (pre f n (2 * i + 1) ++ pre f n (2 * i + 2)). split; [done|]. cbn [map].
      split; [|unfold suml; cbn; lra]. unfold suml; cbn. done. }
    assert (Hgt : (fw i < rv * S)%R) by by apply Rnot_le_lt.
    assert (Hcond : (if (0 <? ci) && negb (inside taken i) then if Rle_dec rv (fw i / S) then true else false else false) = false).
    { destruct ((0 <? ci) && negb (inside taken i)); [|done]. destruct (Rle_dec rv (fw i / S)) as [H'|]; [|done]. apply Hcmp in H'. lra. }
    rewrite Hcond. clear Hcond.
    destruct (n - i) as [|f] eqn:Ef; [lia|]. cbn [pre] in Hle |- *. rewrite (decide_True (P := i < n)) in Hle |- * by done.
    assert (Hpre_fuel : forall f1 f2 j, n - j <= f1 -> n - j <= f2 -> pre f1 n j = pre f2 n j).
    { clear. induction f1 as [|f1 IH]; intros f2 j H1 H2.
      - rewrite !pre_out; [done|lia|lia].
      - destruct f2 as [|f2]; [rewrite !pre_out; [done|lia|lia]|]. cbn [pre]. case_decide; [|done].
        by rewrite (IH f2), (IH f2) by lia. }
    set (L := pre f n (2 * i + 1)) in *. set (Rr := pre f n (2 * i + 2)) in *.
    assert (Hmass : mass w taken (i :: L ++ Rr) = (fw i + (mass w taken L + mass w taken Rr))%R).
    { unfold mass. cbn [map]. rewrite suml_cons, map_app, suml_app. done. }
    rewrite Hmass in Hle.
    case_decide as Hl.
    { exfalso. unfold L, Rr in Hle. rewrite !pre_out in Hle by lia. unfold mass, suml in Hle. cbn in Hle. lra. }
    destruct (lookup_lt_is_Some_2 cnts (2 * i + 1)) as [cl Hcl]; [lia|]. rewrite (Hcl : rd cnts (2 * i + 1) = Some cl). cbn [mbind option_bind].
    pose proof (fw_lookup _ _ Hcl) as Hfl.
    case_decide as Hrt.
    { assert (HR0 : mass w taken Rr = 0%R). { unfold Rr. rewrite pre_out by lia. done. }
      assert (HL : L = [2 * i + 1]).
      { unfold L. destruct f as [|f]; [lia|]. cbn [pre]. rewrite decide_True by lia. rewrite !pre_out by lia. done. }
      assert (Hml : mass w taken L = fw (2 * i + 1)). { rewrite HL. unfold mass, suml. cbn. lra. }
      destruct (inside taken (2 * i + 1)) eqn:Ein; [exfalso; lra|].
      destruct (Nat.ltb_spec 0 cl) as [Hp|Hz]; [|exfalso; assert (cl = 0) as -> by lia; rewrite cw_0 in Hfl; lra].
      exists (2 * i + 1). split; [done|]. split; [lia|]. split; [by apply bool_decide_eq_false in Ein|].
      exists [i], Rr. split; [by rewrite HL|]. cbn [map]. rewrite suml_cons, suml_nil. lra. }
    destruct (left_mass n cum w taken Hwl Hlc Hcum Htaken (2 * i + 1)) as (vl & s & c & Evl & Es & Ec & Hm); [lia|].
    assert (Evl' : (if (0 <? cl) && negb (inside taken (2 * i + 1)) then inv_pow alpha cl else Some 0%R) = Some vl).
    { rewrite <- Evl. unfold rd. rewrite list_lookup_fmap, Hcl. cbn [fmap option_fmap option_map].
      destruct (Nat.ltb_spec 0 cl) as [Hp|Hz]; cbn [andb].
      - destruct (inside taken (2 * i + 1)); [done|]. cbn [negb]. apply inv_pow_cw. lia.
      - assert (cl = 0) as -> by lia. rewrite cw_0. by destruct (inside taken (2 * i + 1)). }
    rewrite Evl'. cbn [mbind option_bind]. rewrite sub_rewards_eq, Es. cbn [mbind option_bind]. rewrite Ec. cbn [mbind option_bind].
    rewrite Hm. assert (HLeq : pre (n - (2 * i + 1)) n (2 * i + 1) = L) by (apply Hpre_fuel; lia).
    assert (HReq : pre (n - (2 * i + 2)) n (2 * i + 2) = Rr) by (apply Hpre_fuel; lia).
    rewrite HLeq.
    assert (Hsub : ((rv - fw i / S) * S = rv * S - fw i)%R) by (field; lra).
    destruct (Rle_dec (rv - fw i / S) (mass w taken L / S)) as [Hgo|Hgo].
    - destruct (IH (2 * i + 1) (rv - fw i / S)%R) as (k & Ek & Hk & Hkt & (b & a & Eba & Hb)).
      + lia.
      + lia.
      + apply (Rmult_lt_reg_r S); [done|]. rewrite Hsub. lra.
      + rewrite Hsub, HLeq. apply (Rmult_le_compat_r S) in Hgo; [|lra]. rewrite Hsub in Hgo.
        replace (mass w taken L / S * S)%R with (mass w taken L) in Hgo by (field; lra). done.
      + rewrite Ek. cbn [mbind option_bind]. rewrite (decide_False (P := k = n)) by lia. cbn [mbind option_bind].
        rewrite (bool_decide_eq_false_2 (k = n)) by lia. rewrite andb_false_r.
        exists k. split; [done|]. split; [done|]. split; [done|]. rewrite HLeq in Eba.
        exists (i :: b), (a ++ Rr). split; [rewrite Eba; by rewrite <- app_assoc|].
        cbn [map]. rewrite suml_cons. rewrite Hsub in Hb. lra.
    - assert (Hgt2 : (mass w taken L < rv * S - fw i)%R).
      { apply Rnot_le_lt in Hgo. apply (Rmult_lt_compat_r S) in Hgo; [|done]. rewrite Hsub in Hgo.
        replace (mass w taken L / S * S)%R with (mass w taken L) in Hgo by (field; lra). done. }
      assert (Hsub2 : ((rv - fw i / S - mass w taken L / S) * S = rv * S - fw i - mass w taken L)%R) by (field; lra).
      destruct (IH (2 * i + 2) (rv - fw i / S - mass w taken L / S)%R) as (k & Ek & Hk & Hkt & (b & a & Eba & Hb)).
      + lia.
      + lia.
      + apply (Rmult_lt_reg_r S); [done|]. rewrite Hsub2. lra.
      + rewrite Hsub2, HReq. lra.
      + rewrite Ek. cbn [mbind option_bind]. rewrite (decide_False (P := k = n)) by lia. cbn [mbind option_bind].
        rewrite (bool_decide_eq_false_2 (k = n)) by lia. rewrite andb_false_r.
        exists k. split; [done|]. split; [done|]. split; [done|]. rewrite HReq in Eba.
        exists (i :: L ++ b), a. split; [rewrite Eba; cbn; by rewrite <- app_assoc|].
        cbn [map]. rewrite suml_cons, map_app, suml_app. fold (mass w taken L). rewrite Hsub2 in Hb. lra.
  Qed.
End sampling.

(** An empty class: nothing is found, the result is [size]. *)
Lemma sample_rewards_empty alpha n cum : length cum = n -> forall fuel i rv S, i < n -> n - i < fuel ->
  sample_rewards alpha fuel cum (replicate n 0) [] n S i rv = Some n.
Proof.
  intros Hc. induction fuel as [|fuel IH]; intros i rv S Hi Hf; [lia|]. cbn [sample_rewards]. rewrite decide_False by lia.
  rewrite (lookup_replicate_2 n 0 i Hi : rd (replicate n 0) i = Some 0). cbn [mbind option_bind]. cbn [Nat.ltb Nat.leb andb]. cbv zeta. cbn [mbind option_bind].
  case_decide as Hl; [done|]. rewrite (lookup_replicate_2 n 0 (2 * i + 1) ltac:(lia) : rd (replicate n 0) (2 * i + 1) = Some 0). cbn [mbind option_bind].
  case_decide as Hr; [done|]. cbn [Nat.ltb Nat.leb andb mbind option_bind]. change (subtracted_rewards alpha (2 * i + 1) (replicate n 0) []) with (Some 0%R).
  cbn [mbind option_bind]. destruct (rd_Some cum (2 * i + 1)) as [c ->]; [lia|]. cbn [mbind option_bind].
  destruct (Rle_dec _ _).
  - rewrite !IH by lia. cbn [mbind option_bind]. destruct (decide (n = n)) as [_|Hn]; done.
  - rewrite !IH by lia. cbn [mbind option_bind]. destruct (decide (n = n)) as [_|Hn]; done.
Qed.
