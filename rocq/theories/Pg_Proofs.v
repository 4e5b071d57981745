(** Proofs about the policy gradient *)
From Verif Require Import NumLib Grad Deriv BaseLemmas Softmax_Model Softmax_Props Sort_Model Iq_Model Iq_Proofs Vae_Proofs Pg_Model Pg_Spec.
From Coq Require Import Reals Lia Lra.
Open Scope nat_scope.

Lemma trunc_0 x : (0 <= x < 1)%R -> trunc x = 0%Z.
Proof.
  intros H. unfold trunc. rewrite decide_True by lra. destruct (base_Int_part x) as [H1 H2].
  assert (IZR (Int_part x) < IZR 1)%R by (cbn; lra). assert (IZR (-1) < IZR (Int_part x))%R by lra.
  apply lt_IZR in H0, H3. lia.
Qed.
Lemma trunc_1 : trunc 1 = 1%Z.
Proof.
  unfold trunc. rewrite decide_True by lra. destruct (base_Int_part 1) as [H1 H2].
  apply le_IZR in H1. assert (IZR 0 < IZR (Int_part 1))%R by lra. apply lt_IZR in H. lia.
Qed.
Lemma merge_loop_zero (l r : list (Z * nat)) : Forall (λ x, x.1 = 0%Z) l -> Forall (λ x, x.1 = 0%Z) r -> merge_loop l r = map snd l ++ map snd r.
Proof.
  intros Hl Hr. induction Hl as [|x l Hx Hl IH]; [by destruct r|]. destruct r as [|y r]; [cbn; by rewrite app_nil_r|].
  cbn. apply list.Forall_cons in Hr as [Hy Hr]. rewrite Hx, Hy. cbn. f_equal. exact IH.
Qed.
Lemma zip_zero (vs : list Z) (ix : list nat) : Forall (λ x, x = 0%Z) vs -> length vs = length ix ->
  Forall (λ x, x.1 = 0%Z) (zip vs ix) /\ map snd (zip vs ix) = ix.
Proof.
  revert ix. induction vs as [|v vs IH]; intros [|i ix] Hz Hl; [by split; [constructor|]|done|done|]. cbn in Hl. apply list.Forall_cons in Hz as [-> Hz].
  destruct (IH ix Hz ltac:(lia)) as [H1 H2]. cbn. split; [by constructor|by f_equal].
Qed.
Lemma merge_id values ix left middle right : Forall (λ x, trunc x = 0%Z) values -> length values = length ix -> left <= middle < right -> right < length ix ->
  merge values ix left middle right = Some ix.
Proof.
  intros Hz Hl Hm Hr. unfold merge. rewrite decide_True by lia. f_equal.
  assert (Hseg : ∀ a n, Forall (λ x, x = 0%Z) (map trunc (take n (drop a values)))).
  { intros a n. apply list.Forall_fmap. apply Forall_take, Forall_drop. exact Hz. }
  destruct (zip_zero _ (take (middle + 1 - left) (drop left ix)) (Hseg left (middle + 1 - left))) as [A1 A2]. { rewrite map_length, !take_length, !drop_length. lia. }
  destruct (zip_zero _ (take (right + 1 - (middle + 1)) (drop (middle + 1) ix)) (Hseg (middle + 1) (right + 1 - (middle + 1)))) as [B1 B2]. { rewrite map_length, !take_length, !drop_length. lia. }
  rewrite merge_loop_zero by done. rewrite A2, B2.
  rewrite <- (take_drop left ix) at 5. f_equal. rewrite <- (take_drop (middle + 1 - left) (drop left ix)) at 2. rewrite <- app_assoc. f_equal.
  rewrite drop_drop. replace (left + (middle + 1 - left)) with (middle + 1) by lia.
  rewrite <- (take_drop (right + 1 - (middle + 1)) (drop (middle + 1) ix)) at 2. f_equal. rewrite drop_drop. f_equal. lia.
Qed.
Lemma merge_sort_id values ix fuel low high : Forall (λ x, trunc x = 0%Z) values -> length values = length ix -> high < length ix -> high + 1 - low < fuel ->
  merge_sort fuel values ix low high = Some ix.
Proof.
  intros Hz Hl. revert low high. induction fuel as [|fuel IH]; intros low high Hh Hf; [lia|]. cbn [merge_sort].
  destruct (decide (low < high)) as [H|H]; [|done].
  assert (low <= low + (high - low) / 2 < high). { pose proof (Nat.div_lt (high - low) 2 ltac:(lia) ltac:(lia)). lia. }
  rewrite IH by lia. cbn [mbind option_bind]. rewrite IH by lia. cbn [mbind option_bind]. by apply merge_id.
Qed.
Lemma sort_id values ix : Forall (λ x, trunc x = 0%Z) values -> length values = length ix -> sort values ix = Some ix.
Proof. intros Hz Hl. unfold sort. destruct (length ix) eqn:E; [done|]. apply merge_sort_id; try done; lia. Qed.

Lemma pick_none output ix r : Forall (λ k, k < length output /\ (0 < el output k)%R) ix -> (r < 0)%R -> pick output ix r = Some None.
Proof.
  intros H. revert r. induction H as [|k ix [Hk Hp] H IH]; intros r Hr; [done|]. cbn [pick]. rewrite rd_el by done. cbn [mbind option_bind].
  rewrite decide_False by lra. apply IH. lra.
Qed.

(** the policy *)
Lemma policy_softmax T n z t k : (∀ i, i < n -> el t i = (el z i / T)%R) -> k < n -> softmax_of everything n t k = policy T n z k.
Proof.
  intros Ht Hk. unfold softmax_of, policy. rewrite active_sum_everything, Ht by done. f_equal. apply sumn_ext. intros i Hi. by rewrite Ht.
Qed.
Lemma policy_sum_pos T n z : 1 <= n -> (0 < sumn n (λ j, exp (el z j / T)))%R.
Proof. intros Hn. eapply Rlt_le_trans; [|apply (sumn_ge_term n (λ j, exp (el z j / T)) 0 Hn)]; [apply exp_pos|]. intros i _. left. apply exp_pos. Qed.
Lemma policy_pos T n z k : 1 <= n -> (0 < policy T n z k)%R.
Proof. intros Hn. apply Rdiv_lt_0_compat; [apply exp_pos|by apply policy_sum_pos]. Qed.
Lemma policy_sum T n z : 1 <= n -> sumn n (policy T n z) = 1%R.
Proof.
  intros Hn. pose proof (policy_sum_pos T n z Hn). unfold policy.
  rewrite (sumn_ext n _ (λ k, exp (el z k / T) * / sumn n (λ j, exp (el z j / T)))%R) by done. rewrite sumn_scal_r. field. lra.
Qed.
Lemma policy_lt1 T n z k : 2 <= n -> k < n -> (policy T n z k < 1)%R.
Proof.
  intros Hn Hk. rewrite <- (policy_sum T n z) by lia.
  set (o := if decide (k = 0) then 1 else 0). assert (Ho : o < n /\ o <> k) by (unfold o; destruct (decide (k = 0)); lia).
  rewrite (sumn_update n k (policy T n z) (λ i, if decide (i = k) then 0 else policy T n z i)%R); [|lia|intros i Hi Hne; by rewrite decide_False].
  rewrite decide_True by done.
  pose proof (sumn_ge_term n (λ i, if decide (i = k) then 0 else policy T n z i)%R o (proj1 Ho)) as Hg. cbn beta in Hg. rewrite decide_False in Hg by lia.
  pose proof (policy_pos T n z o ltac:(lia)). feed pose proof Hg as Hg'. { intros i _. destruct (decide (i = k)); [lra|]. left. apply policy_pos. lia. }
  lra.
Qed.

Lemma scaled_ok input T n : length input = n ->
  ∃ t, for_loop n 0 (λ i l, x ← rd l i; wr l i (x / T)%R) input = Some t /\ length t = n /\ ∀ i, i < n -> el t i = (el input i / T)%R.
Proof.
  intros Hl. destruct (loop_el 0 n (λ i l, x ← rd l i; wr l i (x / T)%R) (λ _ x, x / T)%R input) as (t & E & Lt & Ht).
  - intros i l Hi Hll. rewrite rd_el by lia. done.
  - lia.
  - exists t. split; [done|]. split; [lia|]. intros i Hi. rewrite Ht, decide_True by lia. done.
Qed.
Lemma softmax_ok T z t n : length t = n -> (∀ i, i < n -> el t i = (el z i / T)%R) ->
  ∃ q, softmax t (replicate n 0%R) n = Some q /\ length q = n /\ ∀ i, i < n -> el q i = policy T n z i.
Proof.
  intros Lt Ht. rewrite softmax_run by (rewrite ?replicate_length; lia). eexists. split; [done|]. rewrite imap_length, replicate_length. split; [done|].
  intros i Hi. rewrite el_imap by (rewrite replicate_length; lia). rewrite decide_True by done. by apply policy_softmax.
Qed.

Lemma sample_ok input T n r : 2 <= n -> length input = n -> (0 <= r)%R ->
  ∃ t, sample input T n r = Some (0%Z, t) /\ length t = n /\ ∀ i, i < n -> el t i = (el input i / T)%R.
Proof.
  intros Hn Hl Hr. destruct (scaled_ok input T n Hl) as (t & E & Lt & Ht). exists t. split; [|done]. unfold sample. rewrite E. cbn [mbind option_bind].
  destruct (softmax_ok T input t n Lt Ht) as (q & Eq & Lq & Hq). rewrite Eq. cbn [mbind option_bind].
  assert (Hz : Forall (λ x, trunc x = 0%Z) q).
  { apply list.Forall_lookup. intros i x Hi. pose proof (lookup_lt_Some _ _ _ Hi). rewrite lookup_el in Hi by done. injection Hi as <-. rewrite Hq by lia. apply trunc_0.
    split; [left; apply policy_pos; lia|apply policy_lt1; lia]. }
  rewrite sort_id by (rewrite ?seq_length; done). cbn [mbind option_bind].
  destruct n as [|n]; [lia|]. cbn [seq pick]. rewrite rd_el by lia. cbn [mbind option_bind].
  destruct (decide (el q 0 <= r)%R) as [Hd|Hd]; [done|].
  rewrite pick_none.
  - cbn [mbind option_bind]. replace (S n - 1) with n by lia. assert (Hrd : rd (0 :: seq 1 n) n = Some n). { change (seq 0 (S n) !! n = Some n). rewrite lookup_seq_lt by lia. done. }
    rewrite Hrd. cbn [mbind option_bind]. rewrite rd_el by lia. cbn [mbind option_bind]. f_equal. f_equal.
    apply trunc_0. rewrite Hq by lia. split; [left; apply policy_pos; lia|apply policy_lt1; lia].
  - apply list.Forall_lookup. intros i x Hi. apply lookup_seq in Hi as [-> Hi]. split; [lia|]. rewrite Hq by lia. apply policy_pos. lia.
  - lra.
Qed.

Lemma sample_one input T r : length input = 1 ->
  ∃ t, sample input T 1 r = Some ((if decide (1 <= r)%R then 0 else 1)%Z, t).
Proof.
  intros Hl. destruct (scaled_ok input T 1 Hl) as (t & E & Lt & Ht). exists t. unfold sample. rewrite E. cbn [mbind option_bind].
  destruct (softmax_ok T input t 1 Lt Ht) as (q & Eq & Lq & Hq). rewrite Eq. cbn [mbind option_bind].
  assert (H1 : el q 0 = 1%R). { rewrite Hq by lia. pose proof (policy_sum T 1 input ltac:(lia)) as Hs. cbn [sumn] in Hs. lra. }
  cbn [seq]. unfold sort. cbn [length merge_sort]. rewrite decide_False by lia. cbn [mbind option_bind pick]. rewrite rd_el by lia. cbn [mbind option_bind]. rewrite H1.
  destruct (decide (1 <= r)%R); [done|]. cbn [mbind option_bind]. change (rd [0] (1 - 1)) with (Some 0). cbn [mbind option_bind]. rewrite rd_el by lia. cbn [mbind option_bind]. by rewrite H1, trunc_1.
Qed.

(** the gradient *)
Lemma policy_partial T n z k j : T <> 0%R -> 1 <= n -> n <= length z -> j < n -> k < n ->
  has_partial (λ z, policy T n z k) z j (policy T n z k * ((if decide (k = j) then 1 else 0) - policy T n z j) / T)%R.
Proof.
  intros HT Hn Hz Hj Hk. unfold has_partial, policy. set (S := sumn n (λ j, exp (el z j / T))).
  pose proof (policy_sum_pos T n z Hn) as HS. fold S in HS.
  assert (He : ∀ i, derivable_pt_lim (λ t, exp (el (<[j:=t]> z) i / T)) (el z j) (exp (el z i / T) * ((if decide (i = j) then 1 else 0) / T))%R).
  { intros i. eapply dlim_val; [|apply (dlim_comp (λ t, el (<[j:=t]> z) i / T)%R exp (el z j) ((if decide (i = j) then 1 else 0) / T)%R (exp (el z i / T)))]; [reflexivity| |].
    - eapply dlim_val; [|apply dlim_div; [apply dlim_el; lia|apply dlim_const|exact HT]]. cbn beta. unfold Rsqr. field. done.
    - rewrite upd_self. apply derivable_pt_lim_exp. }
  eapply dlim_val; [|apply (dlim_div _ (λ t, sumn n (λ i, exp (el (<[j:=t]> z) i / T))) _ _ (sumn n (λ i, exp (el z i / T) * ((if decide (i = j) then 1 else 0) / T))%R) (He k)); [apply (dlim_sumn n (λ i t, exp (el (<[j:=t]> z) i / T))); intros i _; apply He|cbn beta; rewrite upd_self; fold S; lra]].
  cbn beta. rewrite upd_self. fold S.
  rewrite (sumn_ext n (λ i, exp (el z i / T) * ((if decide (i = j) then 1 else 0) / T))%R (λ i, if decide (i = j) then exp (el z i / T) / T else 0)%R) by (intros i _; destruct (decide (i = j)); unfold Rdiv; lra).
  rewrite (sumn_delta n j (λ i, exp (el z i / T) / T)%R Hj). unfold Rsqr. destruct (decide (k = j)); field; split; try done; lra.
Qed.
(** the chain rule through the policy *)
Definition chain (T : R) (n : nat) (z : vec) (e : nat -> R) (j : nat) : R :=
  (policy T n z j * (e j - sumn n (λ i, e i * policy T n z i)) / T)%R.
Lemma chain_sum T n z e j : j < n -> sumn n (λ k, e k * (policy T n z k * ((if decide (k = j) then 1 else 0) - policy T n z j) / T))%R = chain T n z e j.
Proof.
  intros Hj. unfold chain.
  rewrite (sumn_ext n _ (λ k, (if decide (k = j) then e k * policy T n z k / T else 0) + (e k * policy T n z k) * (- policy T n z j / T))%R) by (intros k _; destruct (decide (k = j)); unfold Rdiv; ring).
  rewrite sumn_plus, sumn_scal_r, (sumn_delta n j (λ k, e k * policy T n z k / T)%R Hj). unfold Rdiv. ring.
Qed.
Lemma chain_plus T n z e f j : chain T n z (λ i, e i + f i)%R j = (chain T n z e j + chain T n z f j)%R.
Proof. unfold chain. rewrite (sumn_ext n (λ i, (e i + f i) * policy T n z i)%R (λ i, e i * policy T n z i + f i * policy T n z i)%R) by (intros; ring). rewrite sumn_plus. unfold Rdiv. ring. Qed.
Lemma chain_scal T n z c e j : chain T n z (λ i, c * e i)%R j = (c * chain T n z e j)%R.
Proof. unfold chain. rewrite (sumn_ext n (λ i, (c * e i) * policy T n z i)%R (λ i, c * (e i * policy T n z i))%R) by (intros; ring). rewrite sumn_scal_l. unfold Rdiv. ring. Qed.
Lemma chain_ext T n z e f j : j < n -> (∀ i, i < n -> e i = f i) -> chain T n z e j = chain T n z f j.
Proof. intros Hj H. unfold chain. rewrite H by done. do 3 f_equal. apply sumn_ext. intros i Hi. by rewrite H. Qed.

Section partials.
  Context (T : R) (n : nat) (z : vec) (j : nat).
  Hypothesis (HT : T <> 0%R) (Hn : 1 <= n) (Hz : n <= length z) (Hj : j < n).
  Lemma ln_partial k : k < n -> has_partial (λ z, ln (policy T n z k)) z j (/ policy T n z k * (policy T n z k * ((if decide (k = j) then 1 else 0) - policy T n z j) / T))%R.
  Proof using Hj Hn HT Hz.
    intros Hk. apply (dlim_comp (λ t, policy T n (<[j:=t]> z) k) ln); [by apply policy_partial|]. rewrite upd_self. apply derivable_pt_lim_ln. by apply policy_pos.
  Qed.
  Lemma reward_partial alpha : has_partial (λ z, reward_loss n alpha (policy T n z)) z j (chain T n z (λ k, -1 / policy T n z k * alpha k)%R j).
  Proof using Hj Hn HT Hz.
    rewrite <- chain_sum by done. unfold reward_loss, has_partial.
    eapply dlim_ext. { intros t. instantiate (1 := λ t, (-1 * sumn n (λ k, alpha k * ln (policy T n (<[j:=t]> z) k)))%R). cbn beta. ring. }
    eapply dlim_val; [|apply dlim_scal, (dlim_sumn n (λ k t, alpha k * ln (policy T n (<[j:=t]> z) k))%R); intros k Hk; apply dlim_scal, ln_partial; done].
    rewrite <- sumn_scal_l. apply sumn_ext. intros k Hk. unfold Rdiv. ring.
  Qed.
  Lemma entropy_partial : has_partial (λ z, entropy n (policy T n z)) z j (chain T n z (λ k, - (1 + ln (policy T n z k)))%R j).
  Proof using Hj Hn HT Hz.
    rewrite <- chain_sum by done. unfold entropy, has_partial.
    eapply dlim_ext. { intros t. instantiate (1 := λ t, (-1 * sumn n (λ k, policy T n (<[j:=t]> z) k * ln (policy T n (<[j:=t]> z) k)))%R). cbn beta. ring. }
    eapply dlim_val; [|apply dlim_scal, (dlim_sumn n (λ k t, policy T n (<[j:=t]> z) k * ln (policy T n (<[j:=t]> z) k))%R); intros k Hk; apply (dlim_mult (λ t, policy T n (<[j:=t]> z) k) (λ t, ln (policy T n (<[j:=t]> z) k))); [by apply policy_partial|by apply ln_partial]].
    cbn beta. rewrite <- sumn_scal_l. apply sumn_ext. intros k Hk. rewrite upd_self. pose proof (policy_pos T n z k Hn). field. split; [done|lra].
  Qed.
  Lemma distance_partial q' : (0 < distance n (policy T n z) q')%R ->
    has_partial (λ z, distance n (policy T n z) q') z j (chain T n z (λ k, (policy T n z k - q' k) / distance n (policy T n z) q')%R j).
  Proof using Hj Hn HT Hz.
    intros Hd. rewrite <- chain_sum by done. unfold distance in *. unfold has_partial.
    set (s := sumn n (λ k, (policy T n z k - q' k) * (policy T n z k - q' k))%R) in *.
    assert (Hs : (0 < s)%R). { destruct (Rlt_dec 0 s) as [|Hns]; [done|]. rewrite sqrt_neg_0 in Hd by lra. lra. }
    eapply dlim_val; [|apply (dlim_comp (λ t, sumn n (λ k, (policy T n (<[j:=t]> z) k - q' k) * (policy T n (<[j:=t]> z) k - q' k))%R) R_sqrt.sqrt (el z j)
      (sumn n (λ k, 2 * (policy T n z k - q' k) * (policy T n z k * ((if decide (k = j) then 1 else 0) - policy T n z j) / T))%R) (/ (2 * R_sqrt.sqrt s))%R)].
    - rewrite <- sumn_scal_l. apply sumn_ext. intros k Hk. field. split; lra || done.
    - apply (dlim_sumn n (λ k t, (policy T n (<[j:=t]> z) k - q' k) * (policy T n (<[j:=t]> z) k - q' k))%R). intros k Hk.
      assert (Hp : derivable_pt_lim (λ t, policy T n (<[j:=t]> z) k - q' k)%R (el z j) (policy T n z k * ((if decide (k = j) then 1 else 0) - policy T n z j) / T)%R).
      { eapply dlim_val; [|apply (dlim_plus _ (λ _, - q' k)%R); [by apply policy_partial|apply dlim_const]]. lra. }
      eapply dlim_val; [|apply (dlim_mult _ _ _ _ _ Hp Hp)]. cbn beta. rewrite upd_self. ring.
    - rewrite upd_self. fold s. apply derivable_pt_lim_sqrt. done.
  Qed.
End partials.

(** the run of policy_gradient_model_error *)
Lemma mul_ok (a : vec) v n : n <= length a -> ∃ t, mul_value a v (replicate n 0%R) n = Some t /\ length t = n /\ ∀ i, i < n -> el t i = (el a i * v)%R.
Proof.
  intros Hl. unfold mul_value. destruct (loop_el 0 n (λ i l, x ← rd a i; wr l i (x * v)%R) (λ i _, el a i * v)%R (replicate n 0%R)) as (t & E & Lt & Ht).
  - intros i l Hi Hll. rewrite rd_el by lia. done.
  - rewrite replicate_length. lia.
  - rewrite replicate_length in Lt. exists t. split; [done|]. split; [done|]. intros i Hi. rewrite Ht, decide_True by lia. by rewrite Nat.sub_0_r.
Qed.
Lemma policy_ok z T n : T <> 0%R -> n <= length z -> ∃ t q, mul_value z (1 / T) (replicate n 0%R) n = Some t /\ length t = n /\ (∀ i, i < n -> el t i = (el z i / T)%R) /\
  softmax t (replicate n 0%R) n = Some q /\ length q = n /\ ∀ i, i < n -> el q i = policy T n z i.
Proof.
  intros HT Hz. destruct (mul_ok z (1 / T) n Hz) as (t & E & Lt & Ht). assert (Ht' : ∀ i, i < n -> el t i = (el z i / T)%R) by (intros i Hi; rewrite Ht by done; unfold Rdiv; ring).
  destruct (softmax_ok T z t n Lt Ht') as (q & Eq & Lq & Hq). exists t, q. done.
Qed.
(** the derivative of the loss with respect to the probabilities *)
Definition wrt_policy (alpha q q2 : nat -> R) (th1 th2 d : R) (k : nat) : R :=
  (-1 / q k * alpha k + ((if decide (0 < th1) then th1 else 0) * - (1 + ln (q k)) + (if decide (0 < th2) then - th2 else 0) * ((q k - q2 k) / d)))%R.
Lemma policy_error_run out other alpha th1 th2 T n : T <> 0%R -> 2 <= n -> n <= length out -> n <= length alpha ->
  ((0 < th2)%R -> ∃ o, other = Some o /\ n <= length o /\ (0 < distance n (policy T n out) (policy T n o))%R) ->
  ∃ err, policy_error out other alpha (replicate n 0%R) th1 th2 T n = Some err /\ length err = n /\
    ∀ j, j < n -> el err j = chain T n out (wrt_policy (el alpha) (policy T n out) (policy T n (default [] other)) th1 th2 (distance n (policy T n out) (policy T n (default [] other)))) j.
Proof.
  intros HT Hn Lo La Ho. unfold policy_error. cbv zeta.
  destruct (policy_ok out T n HT Lo) as (t & q & Et & Lt & Ht & Eq & Lq & Hq).
  assert (Hq2 : ∃ q2, (if decide (0 < th2)%R then o ← other; t ← mul_value o (1 / T) (replicate n 0%R) n; softmax t (replicate n 0%R) n else Some (replicate n 0%R)) = Some q2 /\
    ((0 < th2)%R -> length q2 = n /\ ∀ i, i < n -> el q2 i = policy T n (default [] other) i)).
  { destruct (decide (0 < th2)%R) as [H2|H2]; [|eexists; split; [done|]; done]. destruct (Ho H2) as (o & -> & Lo2 & _).
    destruct (policy_ok o T n HT Lo2) as (t' & q' & Et' & Lt' & Ht' & Eq' & Lq' & Hq'). exists q'. cbn [mbind option_bind]. rewrite Et'. cbn [mbind option_bind]. done. }
  destruct Hq2 as (q2 & E2 & H2). rewrite E2. cbn [mbind option_bind]. rewrite Et. cbn [mbind option_bind]. rewrite Eq. cbn [mbind option_bind].
  rewrite (rd_el q 0) by lia. cbn [mbind option_bind]. rewrite (rd_el q 1) by lia. cbn [mbind option_bind].
  destruct (loop_el 0 n (λ i e, a ← rd alpha i; x ← rd q i; wr e i (-1 / x * a)%R) (λ i _, -1 / el q i * el alpha i)%R (replicate n 0%R)) as (e1 & Ee1 & Le1 & He1).
  { intros i l Hi Hll. rewrite (rd_el alpha i), (rd_el q i) by lia. done. } { rewrite replicate_length. lia. }
  rewrite Ee1. cbn [mbind option_bind]. rewrite replicate_length in Le1.
  assert (Hs1 : ∃ e2, (if decide (0 < th1)%R then
         for_loop n 0 (λ i e, x ← rd q i; y ← rd e i; wr e i (if decide (x = 0) then y - th1 * (1 - 999) else y - th1 * (1 + ln x))%R) e1
       else Some e1) = Some e2 /\ length e2 = n /\ ∀ k, k < n -> el e2 k = (el e1 k + (if decide (0 < th1) then th1 else 0) * - (1 + ln (el q k)))%R).
  { destruct (decide (0 < th1)%R) as [H1|H1]; [|exists e1; repeat split; [done|]; intros; lra].
    destruct (loop_el 0 n (λ i e, x ← rd q i; y ← rd e i; wr e i (if decide (x = 0) then y - th1 * (1 - 999) else y - th1 * (1 + ln x))%R) (λ i y, y - th1 * (1 + ln (el q i)))%R e1) as (e2 & Ee2 & Le2 & He2).
    { intros i l Hi Hll. rewrite (rd_el q i), (rd_el l i) by lia. cbn [mbind option_bind]. rewrite decide_False; [done|]. rewrite Hq by lia. pose proof (policy_pos T n out i ltac:(lia)). lra. } { lia. }
    exists e2. split; [done|]. split; [lia|]. intros k Hk. rewrite He2, decide_True by lia. rewrite Nat.sub_0_r. lra. }
  destruct Hs1 as (e2 & Ee2 & Le2 & He2). rewrite Ee2. cbn [mbind option_bind].
  set (q' := policy T n (default [] other)) in *. set (d := distance n (policy T n out) q') in *.
  assert (Hs2 : ∃ e3, (if decide (0 < th2)%R then
         s ← sum_loop n (λ i, x ← rd q2 i; y ← rd q i; Some ((x - y) * (x - y))%R) 0%R;
         if decide (0 < R_sqrt.sqrt s)%R then for_loop n 0 (λ i e, x ← rd q2 i; y ← rd q i; z ← rd e i; wr e i (z - th2 * (y - x) / R_sqrt.sqrt s)%R) e2 else Some e2
       else Some e2) = Some e3 /\ length e3 = n /\ ∀ k, k < n -> el e3 k = (el e2 k + (if decide (0 < th2) then - th2 else 0) * ((el q k - q' k) / d))%R).
  { destruct (decide (0 < th2)%R) as [Hp|Hp]; [|exists e2; repeat split; [done|]; intros; lra].
    destruct (H2 Hp) as [Lq2 Hq2]. destruct (Ho Hp) as (o & Eo & Lo2 & Hd). 
    rewrite (for_loop_sum n _ (λ i, (el q2 i - el q i) * (el q2 i - el q i))%R) by (intros i Hi; rewrite (rd_el q2 i), (rd_el q i) by lia; done).
    cbn [mbind option_bind]. rewrite Rplus_0_l.
    assert (Es : R_sqrt.sqrt (sumn n (λ i, (el q2 i - el q i) * (el q2 i - el q i))%R) = d).
    { unfold d, distance. f_equal. apply sumn_ext. intros i Hi. rewrite Hq, Hq2 by done. ring. }
    rewrite Es. assert (Hd' : (0 < d)%R). { unfold d, q'. rewrite Eo. exact Hd. } rewrite decide_True by done.
    destruct (loop_el 0 n (λ i e, x ← rd q2 i; y ← rd q i; z ← rd e i; wr e i (z - th2 * (y - x) / d)%R) (λ i z, z - th2 * (el q i - el q2 i) / d)%R e2) as (e3 & Ee3 & Le3 & He3).
    { intros i l Hi Hll. rewrite (rd_el q2 i), (rd_el q i), (rd_el l i) by lia. done. } { lia. }
    exists e3. split; [done|]. split; [lia|]. intros k Hk. rewrite He3, decide_True by lia. rewrite Nat.sub_0_r, Hq2 by done. unfold Rdiv. ring. }
  destruct Hs2 as (e3 & Ee3 & Le3 & He3). rewrite Ee3. cbn [mbind option_bind].
  destruct (C21_derivative_softmax_is_the_gradient t q e3 (replicate n 0%R) n) as (er & Eer & Ler & Her & _); [lia|lia|lia|rewrite replicate_length; lia| |].
  { intros i Hi. rewrite Hq by done. symmetry. by apply policy_softmax. }
  rewrite Eer. cbn [mbind option_bind]. rewrite replicate_length in Ler.
  destruct (loop_el 0 n (λ i l, x ← rd l i; wr l i (x * (1 / T))%R) (λ _ x, x * (1 / T))%R er) as (err & Ex & Lx & Hx).
  { intros i l Hi Hll. rewrite (rd_el l i) by lia. done. } { lia. }
  exists err. split; [done|]. split; [lia|]. intros j Hj. rewrite Hx, decide_True by lia. destruct (Her j Hj) as (dd & Ed & Hd).
  assert (E0 : el (replicate n 0%R) j = 0%R) by (apply el_lookup, lookup_replicate; done). rewrite Ed, E0, Rplus_0_l.
  pose proof (softmax_partial everything n t e3 j Hj ltac:(lia) eq_refl) as Hsp. rewrite (dlim_unique _ _ _ _ Hd Hsp).
  rewrite (policy_softmax T n out t j Ht Hj). rewrite active_sum_everything. unfold chain.
  assert (Hw : ∀ i, i < n -> el e3 i = wrt_policy (el alpha) (policy T n out) q' th1 th2 d i).
  { intros i Hi. rewrite He3, He2, He1, decide_True by lia. rewrite Nat.sub_0_r, Hq by done. unfold wrt_policy. lra. }
  rewrite Hw by done. rewrite (sumn_ext n (λ i, el e3 i * softmax_of everything n t i)%R (λ i, wrt_policy (el alpha) (policy T n out) q' th1 th2 d i * policy T n out i)%R).
  2:{ intros i Hi. by rewrite Hw, (policy_softmax T n out t i Ht Hi). }
  unfold Rdiv. ring.
Qed.

(** training *)
Section train_proofs.
  Context {P G O : Type} (g0 : G) (gadd : G -> G -> G) (fwd : P -> vec -> vec) (bwd : P -> vec -> vec -> G) (clip : R -> P -> G -> G) (upd : O -> nat -> P -> G -> P) (next : O -> O).
  Hypothesis Hu : ∀ x, gadd g0 x = x.

  Definition add_one (c : pg) (p : P) states rewards actions dde (i : nat) (g : G) : option G :=
    x ← one fwd bwd c p states rewards actions dde i; Some (gadd g x).
  Lemma passage_loop c p states rewards actions dde len g : 1 <= threads c ->
    group_loop (S len) (threads c) len (group g0 gadd fwd bwd c p states rewards actions dde) 0 g = each (add_one c p states rewards actions dde) (seq 0 len) g.
  Proof using Hu.
    intros HT. rewrite (group_loop_each _ (add_one c p states rewards actions dde)); [by rewrite Nat.sub_0_r|done| |lia].
    intros k m a Hk Hm. unfold group. destruct (decide (threads c = 1)) as [E|E].
    - replace m with 1 by lia. cbn. unfold add_one. by destruct (one _ _ _ _ _ _ _ _ _).
    - clear Hk Hm. revert k a. induction m as [|m IH]; intros k a; [done|]. cbn [seq mapM each].
      change (add_one c p states rewards actions dde k a) with (x ← one fwd bwd c p states rewards actions dde k; Some (gadd a x)).
      destruct (one fwd bwd c p states rewards actions dde k) as [x|]; cbn [mbind option_bind]; [|done]. rewrite <- IH.
      destruct (mapM _ (seq (S k) m)) as [xs|]; cbn [mbind option_bind]; [|done]. cbn. by rewrite Hu.
  Qed.
  Lemma set_alpha_ok n a r : ∃ l, set_alpha n a r (replicate n 0%R) = Some l /\ length l = n /\ ∀ k, k < n -> el l k = if decide (a = Z.of_nat k) then r else 0%R.
  Proof.
    unfold set_alpha. destruct (loop_el 0 n (λ j l, wr l j (if decide (a = Z.of_nat j) then r else 0%R)) (λ j _, if decide (a = Z.of_nat j) then r else 0%R) (replicate n 0%R)) as (l & E & L & H).
    - done.
    - rewrite replicate_length. lia.
    - rewrite replicate_length in L. exists l. split; [done|]. split; [done|]. intros k Hk. rewrite H, decide_True by lia. by rewrite Nat.sub_0_r.
  Qed.
  Lemma each_fold {A} (f : nat -> A -> option A) (h : nat -> A -> A) l a : (∀ z a, z ∈ l -> f z a = Some (h z a)) -> each f l a = Some (fold_left (λ a z, h z a) l a).
  Proof.
    revert a. induction l as [|z l IH]; intros a H; [done|]. cbn. rewrite H by (constructor). cbn [mbind option_bind]. apply IH. intros. apply H. by constructor.
  Qed.
  Lemma copy_ok (src dst : vec) n : n <= length src -> n <= length dst -> copy src dst n = Some (take n src ++ drop n dst).
  Proof.
    intros Hs Hd. unfold copy. destruct (loop_el 0 n (λ i l, x ← rd src i; wr l i x) (λ i _, el src i) dst) as (l & E & L & H).
    - intros i l Hi Hl. rewrite rd_el by lia. done.
    - lia.
    - rewrite E. f_equal. apply list_eq_el; [rewrite app_length, take_length, drop_length; lia|]. intros i Hi. rewrite H. unfold el at 3. rewrite nth_lookup.
      destruct (decide (0 <= i < 0 + n)).
      + rewrite lookup_app_l by (rewrite take_length; lia). rewrite lookup_take by lia. rewrite lookup_el by lia. by rewrite Nat.sub_0_r.
      + rewrite lookup_app_r by (rewrite take_length; lia). rewrite take_length, Nat.min_l, lookup_drop by lia. replace (n + (i - n)) with i by lia. by rewrite lookup_el by lia.
  Qed.
  Lemma copy_none (src dst : vec) n : length dst < n -> copy src dst n = None.
  Proof.
    intros Hd. unfold copy. assert (H : ∀ m i l, length l = length dst -> i <= length l -> length l < i + m -> for_loop m i (λ i l, x ← rd src i; wr l i x) l = None).
    { induction m as [|m IH]; intros i l Hl Hi Hm; [lia|]. cbn [for_loop]. destruct (rd src i) as [x|]; cbn [mbind option_bind]; [|done].
      unfold wr. destruct (decide (i < length l)); cbn [mbind option_bind]; [|done]. apply IH; rewrite ?insert_length; lia. }
    apply H; lia.
  Qed.
  (** filling the rows of a matrix one after the other *)
  Lemma rows_loop (ps : list vec) n (body : nat -> list vec -> option (list vec)) (row : nat -> vec) (z : vec) : n <= length ps ->
    (∀ i, i < n -> ps !! i = Some z) ->
    (∀ i l, i < n -> length l = length ps -> l !! i = Some z -> body i l = Some (<[i := row i]> l)) ->
    ∃ l, for_loop n 0 body ps = Some l /\ length l = length ps /\ ∀ i, i < n -> l !! i = Some (row i).
  Proof.
    intros Hn Hz Hb. destruct (for_loop_inv (λ i l, length l = length ps /\ (∀ k, k < i -> l !! k = Some (row k)) /\ (∀ k, i <= k < n -> l !! k = Some z)) body n 0 ps) as (l & E & L & H & _).
    - split; [done|]. split; [lia|]. intros k Hk. apply Hz. lia.
    - intros i l Hi (L & H1 & H2). rewrite Hb by (try done; try lia; apply H2; lia). eexists. split; [done|]. rewrite insert_length. split; [done|]. split; intros k Hk.
      + destruct (decide (k = i)) as [->|]; [rewrite list_lookup_insert by lia; done|]. rewrite list_lookup_insert_ne by lia. apply H1. lia.
      + rewrite list_lookup_insert_ne by lia. apply H2. lia.
    - exists l. split; [done|]. split; [done|]. intros i Hi. apply H. lia.
  Qed.
End train_proofs.
