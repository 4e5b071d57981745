(** C78: merging the edge-popup scores of several networks *)
From Verif Require Import NumLib BaseLemmas RealSum Rank_Model Rank_Spec Rank_Proofs.
From Coq Require Import Reals Lia Lra.
Notation vec := (list R).
Open Scope nat_scope.

(** a function with the properties of the error function that are used *)
Definition erf_like (x : R) : R := (2 / PI * atan x)%R.
Example C78_error_function_case : error_function erf_like.
Proof.
  pose proof PI_RGT_0 as HP. assert (Hc : (0 < 2 / PI)%R) by (apply Rdiv_lt_0_compat; lra). unfold erf_like. split; [|split].
  - intros x. rewrite atan_opp. ring.
  - intros x y H. apply Rmult_lt_compat_l; [done|]. by apply atan_increasing.
  - intros x. pose proof (atan_bound x) as [H1 H2]. assert (E : (2 / PI * (PI / 2) = 1)%R) by (field; lra). split.
    + replace (-1)%R with (2 / PI * (- PI / 2))%R by (field; lra). by apply Rmult_lt_compat_l.
    + rewrite <- E. by apply Rmult_lt_compat_l.
Qed.

(** Sorting never loses or repeats an index: for every number of values the result is a permutation of the array that is given.  *)
Theorem C78_sort_keeps_the_indices : ∀ erf means std n index, n <= length means -> n <= length std -> length index = n -> ∃ r, get_sorted erf means std n index = Some r /\ r ≡ₚ index.
Proof. intros. by apply get_sorted_perm. Qed.
Print Assumptions C78_sort_keeps_the_indices.
Example C78_sort_keeps_the_indices_case : ∃ r, get_sorted erf_like [1%R; 5%R; 3%R; 4%R] [1%R; 1%R; 2%R; 2%R] 4 [0; 1; 2; 3] = Some r /\ r ≡ₚ [0; 1; 2; 3].
Proof. apply C78_sort_keeps_the_indices; cbn; lia. Qed.

(** The value that is computed is not the probability that one value is greater than the other: it is 3/2 - P for the greater mean and 1/2 - P for the smaller, so that it is P only when P is 3/4 or 1/4.  *)
Theorem C78_probability_refuted : ∀ erf mi si mj sj, error_function erf -> (0 < si)%R -> (0 < sj)%R ->
  (prob_greater erf mi si mj sj = if decide (mj <= mi)%R then 3 / 2 - probability_greater erf mi si mj sj else 1 / 2 - probability_greater erf mi si mj sj)%R /\
  ((mj <= mi)%R <-> (1 / 2 <= probability_greater erf mi si mj sj)%R) /\
  (prob_greater erf mi si mj sj = probability_greater erf mi si mj sj -> probability_greater erf mi si mj sj = 3 / 4 \/ probability_greater erf mi si mj sj = 1 / 4)%R.
Proof.
  intros erf mi si mj sj He Hi Hj. destruct (decide (mj <= mi)%R) as [H|H].
  - destruct (prob_hi erf He mi si mj sj Hi Hj H) as [E _]. split; [done|]. split; [|intros E2; lra]. split; [intros _|done].
    unfold probability_greater. pose proof (dev_pos si sj Hi Hj) as Hd. unfold dev in Hd. assert (Hx : (0 <= (mi - mj) / (sqrt 2 * sqrt (si * si + sj * sj)))%R) by (apply Rmult_le_pos; [lra|apply Rlt_le, Rinv_0_lt_compat; lra]).
    destruct (Rle_lt_or_eq_dec _ _ Hx) as [Hp|Hz]; [pose proof (erf_pos erf He _ Hp); lra|rewrite <- Hz, (erf_0 erf He); lra].
  - destruct (prob_lo erf He mi si mj sj Hi Hj ltac:(lra)) as [E Hlt]. split; [done|]. split; [|intros E2; lra]. split; [done|]. intros H2. exfalso.
    destruct He as (Ho & Hm & Hb). pose proof (dev_pos si sj Hi Hj) as Hd. unfold dev in Hd. unfold probability_greater in H2.
    assert (Hx : (0 < - ((mi - mj) / (sqrt 2 * sqrt (si * si + sj * sj))))%R) by (replace (- ((mi - mj) / (sqrt 2 * sqrt (si * si + sj * sj))))%R with ((mj - mi) / (sqrt 2 * sqrt (si * si + sj * sj)))%R by (unfold Rdiv; ring); apply Rdiv_lt_0_compat; lra).
    pose proof (erf_pos erf (conj Ho (conj Hm Hb)) _ Hx) as H3. rewrite Ho in H3. lra.
Qed.
Print Assumptions C78_probability_refuted.
Example C78_probability_refuted_case : prob_greater erf_like 2 1 2 1 = 1%R /\ probability_greater erf_like 2 1 2 1 = (1 / 2)%R.
Proof.
  destruct (C78_probability_refuted erf_like 2 1 2 1 C78_error_function_case ltac:(lra) ltac:(lra)) as [E _]. rewrite decide_True in E by lra.
  assert (Ep : probability_greater erf_like 2 1 2 1 = (1 / 2)%R). { unfold probability_greater. replace ((2 - 2) / _)%R with 0%R by (unfold Rdiv; ring). rewrite (erf_0 _ C78_error_function_case). lra. }
  rewrite Ep in E. split; [lra|done].
Qed.

(** Two values: the greater mean comes first.  *)
Theorem C78_two_sorted : ∀ erf m0 m1 s0 s1, error_function erf -> (0 < s0)%R -> (0 < s1)%R -> ∃ r, get_sorted erf [m0; m1] [s0; s1] 2 [0; 1] = Some r /\ falling (el [m0; m1]) r.
Proof.
  intros erf m0 m1 s0 s1 He H0 H1. eexists. split; [by apply sorted2|]. intros i j x y Hij. destruct (decide (m0 < m1)%R) as [H|H];
    (destruct i as [|[|i]]; [|intros ?; destruct j as [|[|j]]; [lia|lia|done]|done]); (destruct j as [|[|j]]; [lia| |done]); intros [= <-] [= <-]; cbn; lra.
Qed.
Print Assumptions C78_two_sorted.
Example C78_two_sorted_case : ∃ r, get_sorted erf_like [1%R; 2%R] [1%R; 1%R] 2 [0; 1] = Some r /\ falling (el [1%R; 2%R]) r /\ r = [1; 0].
Proof. destruct (C78_two_sorted erf_like 1 2 1 1 C78_error_function_case) as (r & E & H); [lra|lra|]. exists r. split; [done|]. split; [done|]. rewrite (sorted2 _ C78_error_function_case) in E by lra. rewrite decide_True in E by lra. by injection E. Qed.

(** Three values are not sorted: with means m0 < m2 < m1 the least value lands in the middle, so that the result is in neither order.  *)
Theorem C78_three_not_sorted_refuted : ∀ erf m0 m1 m2 s0 s1 s2, error_function erf -> (0 < s0)%R -> (0 < s1)%R -> (0 < s2)%R -> (m0 < m2 < m1)%R ->
  ∃ r, get_sorted erf [m0; m1; m2] [s0; s1; s2] 3 [0; 1; 2] = Some r /\ r = [2; 0; 1] /\ ~ falling (el [m0; m1; m2]) r /\ ~ rising (el [m0; m1; m2]) r.
Proof.
  intros erf m0 m1 m2 s0 s1 s2 He H0 H1 H2 [L1 L2]. exists [2; 0; 1]. split; [by apply sorted3|]. split; [done|]. split.
  - intros H. specialize (H 1 2 0 1 ltac:(lia) eq_refl eq_refl). cbn in H. lra.
  - intros H. specialize (H 0 1 2 0 ltac:(lia) eq_refl eq_refl). cbn in H. lra.
Qed.
Print Assumptions C78_three_not_sorted_refuted.
Example C78_three_not_sorted_case : get_sorted erf_like [1%R; 3%R; 2%R] [1%R; 1%R; 1%R] 3 [0; 1; 2] = Some [2; 0; 1].
Proof. destruct (C78_three_not_sorted_refuted erf_like 1 3 2 1 1 1 C78_error_function_case) as (r & E & -> & _); [lra..|done]. Qed.

(** After a merge all networks have the same scores and the same indices, and in every layer the indices name each connection once and the scores along them are 0, step, 2*step, …  Both merges: by indices and by scores.  *)
Lemma merge_ranked erf values ns step indices scores : indices <> [] -> scores <> [] -> Forall (λ r, total ns <= length r) values -> Forall (λ r, length r = total ns) indices -> Forall (λ r, length r = total ns) scores ->
  ∃ ix sc, readapter erf values ns (total ns) step indices scores = Some (repeat ix (length indices), repeat sc (length scores)) /\ length ix = total ns /\ length sc = total ns /\
    ∀ a o n, layer_at ns a o n -> ranked step ix sc o n.
Proof.
  intros Ni Ns Hv Hi Hs. destruct (readapter_ok erf values ns step indices scores Ni Ns Hv Hi Hs) as (ix & sc & E & Lx & Ls & H). exists ix, sc. split; [done|]. split; [done|]. split; [done|]. intros a o n [Ea Eo]. destruct (H a n o Ea Eo) as [Hp Hr].
  assert (Hon : o + n <= total ns). { subst o. clear -Ea. revert a Ea. induction ns as [|m ns IH]; intros [|a] Ea; [done|done| |]; cbn in *; [injection Ea as ->; lia|]. specialize (IH a Ea). lia. }
  assert (Hl : ∀ {A} (l : list A) i, i < n -> slice l o (o + n) !! i = l !! (o + i)). { intros A l i Hlt. unfold slice. rewrite lookup_take by lia. by rewrite lookup_drop. }
  split.
  - intros x Hx. assert (Hin : x ∈ slice ix o (o + n)) by (rewrite Hp; apply elem_of_seq; lia). apply elem_of_list_lookup in Hin as [i Ei]. pose proof (lookup_lt_Some _ _ _ Ei) as Hlt. rewrite slice_length in Hlt by lia. exists i. split; [lia|]. rewrite <- Hl by lia. done.
  - intros i Hlt. destruct (lookup_lt_is_Some_2 (slice ix o (o + n)) i) as [x Ex]; [rewrite slice_length; lia|]. exists x.
    assert (Hx : x < n). { apply elem_of_list_lookup_2 in Ex as Hin. rewrite Hp in Hin. apply elem_of_seq in Hin. lia. }
    split; [done|]. split; [rewrite <- Hl by lia; done|]. specialize (Hr i x Ex). rewrite <- Hl by lia. destruct (lookup_lt_is_Some_2 (slice sc o (o + n)) x) as [v Ev]; [rewrite slice_length; lia|]. rewrite Ev. f_equal. rewrite <- Hr. symmetry. by apply el_lookup.
Qed.
Theorem C78_merge : ∀ erf ns step indices scores, indices <> [] -> scores <> [] -> Forall (λ r, length r = total ns) indices -> Forall (λ r, length r = total ns) scores ->
  (∃ ix sc, scores_and_indices_readapter erf ns (total ns) step indices scores = Some (repeat ix (length indices), repeat sc (length scores)) /\ length ix = total ns /\ length sc = total ns /\ ∀ a o n, layer_at ns a o n -> ranked step ix sc o n) /\
  (∃ ix sc, scores_and_indices_readapter_float erf ns (total ns) step indices scores = Some (repeat ix (length indices), repeat sc (length scores)) /\ length ix = total ns /\ length sc = total ns /\ ∀ a o n, layer_at ns a o n -> ranked step ix sc o n).
Proof.
  intros erf ns step indices scores Ni Ns Hi Hs. split.
  - apply merge_ranked; [done|done| |done|done]. apply Forall_fmap. eapply list.Forall_impl; [exact Hi|]. intros r Hr. cbv beta in *. unfold compose. rewrite map_length, Hr. done.
  - apply merge_ranked; [done|done| |done|done]. eapply list.Forall_impl; [exact Hs|]. intros r Hr. cbn in *. lia.
Qed.
Print Assumptions C78_merge.
Example C78_merge_case : ∃ ix sc, scores_and_indices_readapter_float erf_like [2; 0; 3] 5 2 [[0; 1; 0; 1; 2]; [1; 0; 2; 1; 0]] [[1; 2; 3; 4; 5]%R; [7; 6; 3; 9; 1]%R] = Some ([ix; ix], [sc; sc]) /\ ranked 2 ix sc 0 2 /\ ranked 2 ix sc 2 3.
Proof.
  destruct (C78_merge erf_like [2; 0; 3] 2 [[0; 1; 0; 1; 2]; [1; 0; 2; 1; 0]] [[1; 2; 3; 4; 5]%R; [7; 6; 3; 9; 1]%R]) as [_ (ix & sc & E & _ & _ & H)]; [done|done|by repeat (apply list.Forall_cons; split)|by repeat (apply list.Forall_cons; split)|].
  exists ix, sc. split; [exact E|]. split; [by apply (H 0)|by apply (H 2)].
Qed.

(** The merge by scores turns the ranking over: in a layer of two connections the one with the greater sum of scores gets the smaller score.  The hypothesis on the scores only keeps the two deviations that the code divides by from being zero.  *)
Theorem C78_merge_reversed_refuted : ∀ erf step indices scores, error_function erf -> (0 < step)%R -> indices <> [] -> scores <> [] -> Forall (λ r, length r = 2) indices -> Forall (λ r, length r = 2) scores ->
  (∀ i, i < 2 -> ∃ j, j < length scores /\ score_of scores j i <> (summed scores i / 2)%R) ->
  ∃ ix sc, scores_and_indices_readapter_float erf [2] 2 step indices scores = Some (repeat ix (length indices), repeat sc (length scores)) /\
    ∀ a b, a < 2 -> b < 2 -> (summed scores a < summed scores b)%R -> (el sc b < el sc a)%R.
Proof.
  intros erf step indices scores He Hst Ni Ns Hi Hs Hd. destruct indices as [|index ir]; [done|]. apply list.Forall_cons in Hi as [Li Hi]. destruct index as [|i0 [|i1 [|? ?]]]; [done|done| |done].
  assert (Hv : Forall (λ r : vec, 2 <= length r) scores) by (eapply list.Forall_impl; [exact Hs|]; intros r Hr; cbn in *; lia).
  set (S0 := summed scores 0). set (S1 := summed scores 1). set (D := λ i, sumn (length scores) (λ j, (score_of scores j i - summed scores i / 2) * (score_of scores j i - summed scores i / 2))%R).
  assert (HD : ∀ i, i < 2 -> (0 < D i)%R). { intros i Hlt. destruct (Hd i Hlt) as (j & Hj & Hne). eapply Rlt_le_trans; [|apply (sumn_ge_term (length scores) _ j Hj); intros; apply Rle_0_sqr]. cbv beta. apply Rsqr_pos_lt. lra. }
  assert (Er : readapt erf scores [i0; i1] 2 [(0, 2); (2, 2)] = Some (if decide (S0 < S1)%R then [1; 0] else [0; 1])).
  { unfold readapt. rewrite col_sums_ok by done. cbn [seq map mbind option_bind].
    match goal with |- context [on_pieces ?f ?p ?l ≫= _] => assert (Em : on_pieces f p l = Some [(S0 / INR 2)%R; (S1 / INR 2)%R]) by reflexivity; rewrite Em; clear Em end.
    cbn [mbind option_bind]. rewrite col_devs_ok by (done || cbn; lia). cbn [seq map mbind option_bind].
    match goal with |- context [get_sorted erf _ (map _ (slice ?s _ _)) _] => assert (Es : s = [D 0; D 1]) by (unfold D, col; repeat f_equal); rewrite Es; clear Es end.
    assert (O2 : ∀ A (f : list A -> option (list A)) x y, on_slice 0 2 f [x; y] = r ← f [x; y]; Some (r ++ [])) by reflexivity.
    cbn [on_pieces]. rewrite O2. cbn [mbind option_bind Nat.sub seq app]. rewrite (decide_True (P := 0 <> 2)) by lia. rewrite O2. unfold slice. cbn [Nat.sub drop take map].
    assert (I2 : INR 2 = 2%R) by (cbn; lra). pose proof (HD 0 ltac:(lia)). pose proof (HD 1 ltac:(lia)).
    rewrite (sorted2 erf He) by (rewrite I2; lra). cbn [mbind option_bind app]. 
    destruct (decide (S0 / INR 2 < S1 / INR 2)%R) as [X|X], (decide (S0 < S1)%R) as [Y|Y]; try (exfalso; rewrite I2 in X; lra); reflexivity. }
  destruct scores as [|score sr]; [done|]. apply list.Forall_cons in Hs as [Lsc Hs]. destruct score as [|x0 [|x1 [|? ?]]]; [done|done| |done].
  unfold scores_and_indices_readapter_float, readapter. replace (pieces (S (length [2])) [2] 0) with (Some [(0, 2); (2, 2)]) by reflexivity. cbn [mbind option_bind]. rewrite Er. cbn [mbind option_bind].
  exists (if decide (S0 < S1)%R then [1; 0] else [0; 1]), (if decide (S0 < S1)%R then [(INR 1 * step)%R; (INR 0 * step)%R] else [(INR 0 * step)%R; (INR 1 * step)%R]). split.
  - destruct (decide (S0 < S1)%R).
    + match goal with |- context [on_pieces ?f ?p ?l ≫= _] => assert (Em : on_pieces f p l = Some [(INR 1 * step)%R; (INR 0 * step)%R]) by reflexivity; rewrite Em; clear Em end. cbn [mbind option_bind]. by rewrite !copy_row_ok.
    + match goal with |- context [on_pieces ?f ?p ?l ≫= _] => assert (Em : on_pieces f p l = Some [(INR 0 * step)%R; (INR 1 * step)%R]) by reflexivity; rewrite Em; clear Em end. cbn [mbind option_bind]. by rewrite !copy_row_ok.
  - intros a b Ha Hb. destruct a as [|[|a]]; [| |lia]; (destruct b as [|[|b]]; [| |lia]); fold S0 S1; intros Hlt; try lra.
    + rewrite decide_True by done. unfold el. cbn. lra.
    + rewrite decide_False by lra. unfold el. cbn. lra.
Qed.
Print Assumptions C78_merge_reversed_refuted.
Example C78_merge_reversed_case : ∃ ix sc, scores_and_indices_readapter_float erf_like [2] 2 1 [[0; 1]; [0; 1]] [[1; 5]%R; [2; 6]%R] = Some ([ix; ix], [sc; sc]) /\ (el sc 1 < el sc 0)%R.
Proof.
  destruct (C78_merge_reversed_refuted erf_like 1 [[0; 1]; [0; 1]] [[1; 5]%R; [2; 6]%R] C78_error_function_case) as (ix & sc & E & H); [lra|done|done|by repeat (apply list.Forall_cons; split)|by repeat (apply list.Forall_cons; split)| |].
  - intros i Hi. exists 0. split; [cbn; lia|]. destruct i as [|[|i]]; [| |lia]; unfold summed, score_of, el; cbn; lra.
  - exists ix, sc. split; [exact E|]. apply H; [lia|lia|]. unfold summed, score_of, el; cbn; lra.
Qed.
