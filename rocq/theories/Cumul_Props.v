(** C10, C11: cumulative tree and weighted sampling (src/utils.c:1366-1484, src/rainbow.c:1598-1608). *)
From Verif Require Import RealSum Heap_Model Heap_Proofs Cumul_Model Cumul_Spec Cumul_Proofs.
Open Scope nat_scope.

(** C10.  After any history of weight changes (insertions included: they change a weight from 0) each
    node of the cumulative tree holds the total of the weights strictly below it, the running total
    is the sum of all weights, and the weights are the ones last set. *)
Theorem C10_tree_stores_subtree_sums :
  forall (n : nat) (changes : list (nat * R)), Forall (fun c => c.1 < n) changes ->
    exists t, change_weights (init_tree n) changes = Some t /\
      weights t = foldl (fun w c => <[c.1 := c.2]> w) (replicate n 0%R) changes /\
      length (cumul t) = n /\
      (forall i x, cumul t !! i = Some x -> total_over (weights t) n (ancestor i) x) /\
      total_over (weights t) n (fun _ => True) (total t).
Proof.
  intros n changes HF. destruct (change_weights_ok n changes _ (tree_init n) HF) as (t & E & (Hlw & Hlc & Hc & Ht) & Hw).
  exists t. split; [done|]. split; [done|]. split; [done|]. split.
  - intros i x Hx. apply (total_over_iff _ _ (ancestor i)). rewrite suml_indicator. by apply Hc.
  - apply (total_over_iff _ _ (fun _ => True)). rewrite suml_indicator, Ht. apply sumn_ext. intros j _. by rewrite decide_True.
Qed.
Print Assumptions C10_tree_stores_subtree_sums.

(** C10 (locality).  A weight change by v adds v to the cumulative value of the proper ancestors of
    the element and to nothing else. *)
Theorem C10_update_changes_only_ancestors :
  forall (cum : list R) (index : nat) (v : R), index < length cum ->
    exists cum', update_up (index + 1) cum index true v = Some cum' /\ length cum' = length cum /\
      forall i x, cum !! i = Some x ->
        (ancestor i index -> cum' !! i = Some (x + v)%R) /\ (~ ancestor i index -> cum' !! i = Some x).
Proof.
  intros cum index v Hi. destruct (update_up_ok (length cum) v (index + 1) cum index true eq_refl Hi ltac:(lia)) as (c' & E & Hl & H).
  exists c'. split; [done|]. split; [done|]. intros i x Hx. rewrite (H i x Hx). split; intros Ha.
  - by rewrite decide_True by by left.
  - rewrite decide_False by naive_solver. f_equal. lra.
Qed.
Print Assumptions C10_update_changes_only_ancestors.

Example C10_case : Forall (fun c : nat * R => c.1 < 4) [(0, 5%R); (3, 2%R); (3, 7%R)] /\ ancestor 0 3 /\ ancestor 1 3 /\ ~ ancestor 2 3.
Proof.
  split; [repeat constructor; cbn; lia|]. split; [split; [lia|by exists 2]|]. split; [split; [lia|by exists 1]|].
  intros [_ [k Hk]]. destruct k as [|[|k]]; [done|done|]. rewrite !up_S in Hk. cbn in Hk. rewrite up_0 in Hk. done.
Qed.

(** value_is_child decides ancestry. *)
Theorem C10_value_is_child : forall child parent, value_is_child child parent = true <-> ancestor parent child.
Proof. exact value_is_child_ok. Qed.
Print Assumptions C10_value_is_child.

(** C11.  There is one fixed order of the n stored elements such that, for all weights
    with their cumulative tree, all sets of already taken elements, and S the positive total of the
    free weights, every draw p in (0,1] returns the free element in whose interval p*S falls: the
    intervals have the free weights as lengths and are laid out in that order, so each free element is
    drawn for a fraction (its weight)/S of the draws and a taken element never is. *)
Theorem C11_weighted_sample_is_proportional :
  forall n, exists order, order ≡ₚ seq 0 n /\
    forall (cum w : list R) (taken : list nat) (S p : R),
      length w = n -> length cum = n -> 0 < n ->
      (forall i x, cum !! i = Some x -> total_over w n (ancestor i) x) ->
      (forall t, t ∈ taken -> t < n) ->
      S = suml (map (free_weight w taken) (seq 0 n)) -> (0 < S)%R -> (0 < p <= 1)%R ->
      exists k, weighted_sample (n + 1) cum w taken n S 0 p = Some k /\ k < n /\ k ∉ taken /\
        interval_of w taken order (p * S) k.
Proof.
  intros n. exists (pre n n 0).
  assert (HP : pre n n 0 ≡ₚ seq 0 n).
  { apply NoDup_Permutation; [apply NoDup_pre; lia|apply NoDup_ListNoDup, seq_NoDup|].
    intros j. rewrite <- (pre_perm n). rewrite !elem_of_pre by lia. done. }
  split; [done|]. intros cum w taken S p Hlw Hlc Hn Hc Ht HS HS0 Hp.
  assert (HC' : forall i x, cum !! i = Some x -> x = suml (map (wt w) (elems n (ancestor i)))).
  { intros i x Hx. apply (proj1 (total_over_iff w n (ancestor i) x)). by apply Hc. }
  destruct (sample_ok n cum w taken Hlw Hlc HC' Ht S HS0 (n + 1) 0 p) as (k & Ek & Hk & Hkt & HI).
  - lia.
  - lia.
  - lra.
  - rewrite Nat.sub_0_r. unfold mass. rewrite (suml_perm _ _ (Permutation_map (free_weight w taken) HP)), <- HS.
    rewrite <- (Rmult_1_l S) at 2. apply Rmult_le_compat_r; lra.
  - exists k. rewrite Nat.sub_0_r in HI. done.
Qed.
Print Assumptions C11_weighted_sample_is_proportional.

(** C11 (a whole batch).  Sampling a batch of at most n elements with draws in (0,1] returns distinct
    stored elements. *)
Lemma sample_batch_ok n (cum w : list R) :
  length w = n -> length cum = n ->
  (forall j x, w !! j = Some x -> (0 < x)%R) ->
  (forall i x, cum !! i = Some x -> total_over w n (ancestor i) x) ->
  forall draws taken, NoDup taken -> (forall t, t ∈ taken -> t < n) -> length taken + length draws <= n ->
    Forall (fun p => 0 < p <= 1)%R draws ->
    exists batch, sample_batch cum w n draws taken (suml (map (free_weight w taken) (seq 0 n))) = Some batch /\
      NoDup batch /\ (forall t, t ∈ batch -> t < n) /\ length batch = length taken + length draws.
Proof.
  intros Hlw Hlc Hw Hc. induction draws as [|p ps IH]; intros taken Hnd Ht Hlen HF; cbn [sample_batch].
  - exists taken. split; [done|]. split; [done|]. split; [done|]. cbn. lia.
  - apply Forall_cons_1 in HF as [Hp HF]. cbn in Hlen.
    destruct (C11_weighted_sample_is_proportional n) as (order & _ & Hsamp).
    set (S := suml (map (free_weight w taken) (seq 0 n))).
    assert (HS : (0 < S)%R).
    { destruct (decide (Forall (fun j => j ∈ taken) (seq 0 n))) as [Hall|Hex].
      - exfalso. assert (length (seq 0 n) <= length taken); [|rewrite seq_length in *; lia].
        apply NoDup_incl_length; [apply seq_NoDup|]. intros x Hx. apply elem_of_list_In.
        rewrite Forall_forall in Hall. apply Hall. exact Hx.
      - apply not_Forall_Exists in Hex; [|apply _]. apply Exists_exists in Hex as (j & Hj & Hnj). cbn in Hnj.
        unfold S. rewrite suml_seq. apply elem_of_list_In, elem_of_seq in Hj.
        assert (Hfj : (0 < free_weight w taken j)%R).
        { unfold free_weight. rewrite decide_False by done. destruct (lookup_lt_is_Some_2 w j) as [x Hx]; [lia|]. rewrite Hx. cbn. by eapply Hw. }
        eapply Rlt_le_trans; [exact Hfj|]. apply (sumn_ge_term n (free_weight w taken)); [lia|].
        intros i Hi. unfold free_weight. case_decide; [lra|]. destruct (w !! i) eqn:E; cbn; [left; by eapply Hw|lra]. }
    destruct (Hsamp cum w taken S p) as (k & Ek & Hk & Hkt & _); try done.
    + lia.
    + rewrite Ek. cbn [mbind option_bind]. destruct (lookup_lt_is_Some_2 w k) as [x Hx]; [lia|]. unfold rd. rewrite Hx. cbn [mbind option_bind].
      unfold inside. rewrite bool_decide_eq_false_2 by done.
      assert ((S - x)%R = suml (map (free_weight w (taken ++ [k])) (seq 0 n))) as ->.
      { unfold S. rewrite !suml_seq.
        rewrite (sumn_update n k (free_weight w (taken ++ [k])) (free_weight w taken)); [|done|].
        - assert (free_weight w (taken ++ [k]) k = 0%R) as -> by (unfold free_weight; rewrite decide_True; [done|set_solver]).
          assert (free_weight w taken k = x) as -> by (unfold free_weight; rewrite decide_False by done; by rewrite Hx). lra.
        - intros i Hi Hne. unfold free_weight. destruct (decide (i ∈ taken)); [rewrite decide_True by set_solver|rewrite decide_False by set_solver]; done. }
      destruct (IH (taken ++ [k])) as (batch & Eb & Hb1 & Hb2 & Hb3).
      * apply NoDup_app. split; [done|]. split; [set_solver|]. apply NoDup_singleton.
      * intros t. rewrite elem_of_app, elem_of_list_singleton. intros [?| ->]; [by apply Ht|done].
      * rewrite app_length. cbn. lia.
      * done.
      * exists batch. split; [done|]. split; [done|]. split; [done|]. rewrite app_length in Hb3. cbn in Hb3 |- *. lia.
Qed.

Theorem C11_batch_has_no_repetition :
  forall (n : nat) (cum w : list R) (draws : list R),
    length w = n -> length cum = n -> (forall j x, w !! j = Some x -> (0 < x)%R) ->
    (forall i x, cum !! i = Some x -> total_over w n (ancestor i) x) ->
    length draws <= n -> Forall (fun p => 0 < p <= 1)%R draws ->
    exists batch, sample_batch cum w n draws [] (suml w) = Some batch /\
      NoDup batch /\ (forall t, t ∈ batch -> t < n) /\ length batch = length draws.
Proof.
  intros n cum w draws Hlw Hlc Hw Hc Hd HF.
  destruct (sample_batch_ok n cum w Hlw Hlc Hw Hc draws []) as (batch & E & H1 & H2 & H3); try done.
  - constructor.
  - set_solver.
  - exists batch. split; [|done]. rewrite <- E. f_equal.
    assert (map (free_weight w []) (seq 0 n) = w) as ->; [|done].
    apply list_eq. intros i. rewrite list_lookup_fmap. destruct (decide (i < n)) as [Hi|Hi].
    + rewrite lookup_seq_lt by done. cbn. destruct (lookup_lt_is_Some_2 w i) as [x Hx]; [lia|]. rewrite Hx.
      unfold free_weight. rewrite decide_False by set_solver. by rewrite Hx.
    + rewrite lookup_seq_ge by lia. cbn. symmetry. apply lookup_ge_None. lia.
Qed.
Print Assumptions C11_batch_has_no_repetition.

(** A concrete tree meeting the hypotheses: weights 1, 1/2, 1/3. *)
Example C11_hyps : exists t, change_weights (init_tree 3) [(0, 1%R); (1, (/ 2)%R); (2, (/ 3)%R)] = Some t /\
  length (weights t) = 3 /\ length (cumul t) = 3 /\ (forall j x, weights t !! j = Some x -> (0 < x)%R) /\
  (forall i x, cumul t !! i = Some x -> total_over (weights t) 3 (ancestor i) x) /\ total t = suml (weights t).
Proof.
  destruct (C10_tree_stores_subtree_sums 3 [(0, 1%R); (1, (/ 2)%R); (2, (/ 3)%R)]) as (t & E & Hw & Hl & Hc & Ht).
  { repeat constructor; cbn; lia. }
  exists t. split; [done|]. cbn in Hw. rewrite Hw in *. split; [done|]. split; [done|]. split.
  - intros [|[|[|j]]] x Hx; cbn in Hx; simplify_eq; lra.
  - split; [done|]. apply (Ht [0;1;2]).
    + repeat constructor; set_solver.
    + intros j. split; [|intros [? _]; destruct j as [|[|[|j]]]; [set_solver..|lia]].
      intros Hj. split; [|done]. repeat (apply elem_of_cons in Hj as [->|Hj]; [lia|]). set_solver.
Qed.

(** The draw p = 0 (r2() returns 0 when rand() returns 0) is not covered: it can return an element
    that is already taken although a free one is left.  Seven elements of weight 1, only element 2 is
    free: the draw 0 returns the taken element 3. *)
Theorem C11_draw_zero_refuted :
  exists (cum w : list R) (taken : list nat),
    length w = 7 /\ 2 ∉ taken /\ (forall t, t ∈ taken -> t < 7) /\
    (forall i x, cum !! i = Some x -> total_over w 7 (ancestor i) x) /\
    weighted_sample 8 cum w taken 7 (suml (map (free_weight w taken) (seq 0 7))) 0 0 = Some 3 /\ 3 ∈ taken.
Proof.
  exists [6;2;2;0;0;0;0]%R, (replicate 7 1%R), [0;1;3;4;5;6].
  split; [done|]. split; [set_solver|]. split; [intros t Ht; repeat (apply elem_of_cons in Ht as [->|Ht]; [lia|]); set_solver|].
  split; [|split; [|set_solver]].
  - assert (Hrep : forall j, j < 7 -> wt (replicate 7 1%R) j = 1%R).
    { intros j Hj. unfold wt. by rewrite lookup_replicate_2 by done. }
    intros i x Hx. apply (total_over_iff _ _ (ancestor i)).
    assert (Hi : i < 7) by (apply lookup_lt_Some in Hx; done).
    assert (HP : elems 7 (ancestor i) ≡ₚ pre 7 7 (2 * i + 1) ++ pre 7 7 (2 * i + 2)) by (apply below_perm; lia).
    rewrite (suml_perm _ _ (Permutation_map _ HP)). clear HP.
    assert (Hpre : forall l, pre 7 7 (2 * i + 1) ++ pre 7 7 (2 * i + 2) = l -> Forall (fun j => j < 7) l ->
      suml (map (wt (replicate 7 1%R)) (pre 7 7 (2 * i + 1) ++ pre 7 7 (2 * i + 2))) = INR (length l)).
    { intros l -> Hl. clear -Hl Hrep. induction Hl as [|y l Hy Hl IH]; [done|]. cbn [map length]. rewrite suml_cons, IH, Hrep by done.
      rewrite S_INR. lra. }
    destruct i as [|[|[|[|[|[|[|i]]]]]]]; [..|lia]; injection Hx as <-;
      (erewrite Hpre; [|vm_compute; reflexivity|repeat constructor; lia]); cbn; lra.
  - set (S := suml _).
    assert (HS : S = 1%R).
    { unfold S. rewrite suml_seq. rewrite (sumn_single 7 2).
      - unfold free_weight. rewrite decide_False by set_solver. done.
      - lia.
      - intros i Hi Hne. unfold free_weight. rewrite decide_True; [done|]. destruct i as [|[|[|[|[|[|[|i]]]]]]]; set_solver || lia. }
    rewrite HS. clear HS S.
    assert (Hlow : forall f i, i < 7 -> inside [0;1;3;4;5;6] i = true -> inside [0;1;3;4;5;6] (2 * i + 1) = true ->
      2 * i + 2 < 7 -> forall sb, subtracted_value (2 * i + 1) (replicate 7 1%R) [0;1;3;4;5;6] = Some sb ->
      forall c, [6;2;2;0;0;0;0]%R !! (2 * i + 1) = Some c -> c = sb ->
      weighted_sample (S f) [6;2;2;0;0;0;0]%R (replicate 7 1%R) [0;1;3;4;5;6] 7 1 i 0 =
      weighted_sample f [6;2;2;0;0;0;0]%R (replicate 7 1%R) [0;1;3;4;5;6] 7 1 (2 * i + 1) 0).
    { intros f i Hi Hin Hinl Hr sb Hsb c Hc Hcs. cbn [weighted_sample]. rewrite decide_False by lia. rewrite Hin. cbn [mbind option_bind].
      rewrite decide_False by lia. rewrite decide_False by lia. rewrite Hinl. cbn [mbind option_bind]. rewrite Hsb. cbn [mbind option_bind].
      unfold rd. rewrite Hc. cbn [mbind option_bind]. rewrite Hcs. destruct (Rle_dec _ _) as [_|Hn]; [|exfalso; lra].
      f_equal. lra. }
    rewrite (Hlow 7 0) with (sb := (0 + 1 + 1)%R) (c := 2%R); [|lia|done|done|lia|vm_compute; reflexivity|done|lra].
    rewrite (Hlow 6 (2 * 0 + 1)) with (sb := 0%R) (c := 0%R); [|lia|done|done|lia|vm_compute; reflexivity|done|lra].
    cbn [weighted_sample]. rewrite decide_False by lia.
    assert (inside [0; 1; 3; 4; 5; 6] (2 * (2 * 0 + 1) + 1) = true) as -> by done. cbn [mbind option_bind].
    rewrite decide_True by lia. done.
Qed.
Print Assumptions C11_draw_zero_refuted.
