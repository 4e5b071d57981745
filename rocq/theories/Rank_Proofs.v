(** Proofs about the merging of scores *)
From Verif Require Import NumLib BaseLemmas Save_Proofs Rank_Model Rank_Spec.
From Coq Require Import Reals Lia Lra.
Notation vec := (list R).
Open Scope nat_scope.

Section proofs.
  Context (erf : R -> R).
  Lemma fill_ok means std n : n <= length means -> n <= length std -> ∃ p, fill_prob erf means std n = Some p /\ length p = n * n.
  Proof.
    intros Hm Hs. unfold fill_prob. destruct (for_loop_inv (λ _ (p : vec), length p = n * n) (λ i p, for_loop (n - S i) (S i) (λ j p,
      si ← rd std i; sj ← rd std j; mi ← rd means i; mj ← rd means j;
      p ← wr p (i * n + j) (prob_greater erf mi si mj sj);
      q ← rd p (i * n + j); wr p (j * n + i) (1 - q)%R) p) n 0 (repeat 0%R (n * n))) as (p & E & Hp).
    - apply repeat_length.
    - intros i p Hi Hp. destruct (for_loop_inv (λ _ (p : vec), length p = n * n) (λ j p,
        si ← rd std i; sj ← rd std j; mi ← rd means i; mj ← rd means j;
        p ← wr p (i * n + j) (prob_greater erf mi si mj sj);
        q ← rd p (i * n + j); wr p (j * n + i) (1 - q)%R) (n - S i) (S i) p) as (p' & E & Hp'); [done| |by exists p'].
      intros j q Hj Hq. rewrite !rd_el by lia. cbn [mbind option_bind]. rewrite wr_Some by nia. cbn [mbind option_bind]. rewrite rd_el by (rewrite insert_length; nia). cbn [mbind option_bind].
      rewrite wr_Some by (rewrite insert_length; nia). eexists. split; [done|]. by rewrite !insert_length.
    - exists p. done.
  Qed.
  Lemma swap_ok n i j p (ix : list nat) : i < n -> j < n -> length p = n * n -> length ix = n -> ∃ p' ix', swap_step n i j (p, ix) = Some (p', ix') /\ length p' = n * n /\ ix' ≡ₚ ix.
  Proof.
    intros Hi Hj Lp Li. unfold swap_step. destruct (decide (j = i)) as [|Hne]; [by exists p, ix|]. rewrite !rd_el by nia. cbn [mbind option_bind]. destruct (decide _); [|by exists p, ix].
    rewrite wr_Some by nia. cbn [mbind option_bind]. rewrite wr_Some by (rewrite insert_length; nia). cbn [mbind option_bind].
    destruct (lookup_lt_is_Some_2 ix i) as [x Ex]; [lia|]. destruct (lookup_lt_is_Some_2 ix j) as [y Ey]; [lia|]. unfold rd. rewrite Ex, Ey. cbn [mbind option_bind]. rewrite wr_Some by lia. cbn [mbind option_bind].
    rewrite wr_Some by (rewrite insert_length; lia). cbn [mbind option_bind]. eexists _, _. split; [done|]. split; [by rewrite !insert_length|].
    destruct (decide (i < j)); [by apply swap_perm|]. rewrite list_insert_commute by done. apply swap_perm; [lia|done|done].
  Qed.
  Lemma get_sorted_perm means std n (ix : list nat) : n <= length means -> n <= length std -> length ix = n -> ∃ ix', get_sorted erf means std n ix = Some ix' /\ ix' ≡ₚ ix.
  Proof.
    intros Hm Hs Hl. unfold get_sorted. destruct (fill_ok means std n Hm Hs) as (p & -> & Hp). cbn [mbind option_bind].
    destruct (for_loop_inv (λ _ (st : vec * list nat), length st.1 = n * n /\ st.2 ≡ₚ ix) (λ i st, for_loop (n - 1) 0 (λ j st, swap_step n i j st) st) n 0 (p, ix)) as ([p' ix'] & -> & _ & Hx).
    - done.
    - intros i st Hi Hst. destruct (for_loop_inv (λ _ (st : vec * list nat), length st.1 = n * n /\ st.2 ≡ₚ ix) (λ j st, swap_step n i j st) (n - 1) 0 st) as (st' & E & H'); [done| |by exists st'].
      intros j [q iy] Hj [Hq Hy]. cbn in Hq, Hy. pose proof (Permutation_length Hy) as HL. destruct (swap_ok n i j q iy) as (q' & iy' & E & Hq' & Hy'); [lia|lia|done|lia|]. exists (q', iy'). split; [done|]. split; [done|]. cbn. by rewrite Hy', Hy.
    - exists ix'. done.
  Qed.
  (** the order of two means *)
  Context (Herf : error_function erf).
  Lemma erf_0 : erf 0 = 0%R.
  Proof using Herf. destruct Herf as [H _]. specialize (H 0%R). rewrite Ropp_0 in H. lra. Qed.
  Lemma erf_pos x : (0 < x)%R -> (0 < erf x < 1)%R.
  Proof using Herf. intros H. pose proof erf_0. destruct Herf as (_ & Hm & Hb). specialize (Hm 0%R x H). specialize (Hb x). lra. Qed.
  Definition dev (si sj : R) : R := (R_sqrt.sqrt 2 * R_sqrt.sqrt (si * si + sj * sj))%R.
  Lemma dev_pos si sj : (0 < si)%R -> (0 < sj)%R -> (0 < dev si sj)%R.
  Proof using. intros Hi Hj. apply Rmult_lt_0_compat; apply sqrt_lt_R0; nra. Qed.
  Lemma prob_hi mi si mj sj : (0 < si)%R -> (0 < sj)%R -> (mj <= mi)%R -> prob_greater erf mi si mj sj = (3 / 2 - probability_greater erf mi si mj sj)%R /\ (1 / 2 < prob_greater erf mi si mj sj)%R.
  Proof using Herf.
    intros Hi Hj Hm. unfold prob_greater, probability_greater. change (R_sqrt.sqrt 2 * R_sqrt.sqrt (si * si + sj * sj))%R with (dev si sj). pose proof (dev_pos si sj Hi Hj) as Hd.
    assert (He : (0 <= erf ((mi - mj) / dev si sj) < 1)%R).
    { destruct (Req_dec mi mj) as [->|Hne]; [replace ((mj - mj) / dev si sj)%R with 0%R by (unfold Rdiv; ring); rewrite erf_0; lra|]. assert (0 < (mi - mj) / dev si sj)%R as Hp by (apply Rdiv_lt_0_compat; lra). apply erf_pos in Hp. lra. }
    destruct (decide _) as [H|H]; lra.
  Qed.
  Lemma prob_lo mi si mj sj : (0 < si)%R -> (0 < sj)%R -> (mi < mj)%R -> prob_greater erf mi si mj sj = (1 / 2 - probability_greater erf mi si mj sj)%R /\ (prob_greater erf mi si mj sj < 1 / 2)%R.
  Proof using Herf.
    intros Hi Hj Hm. unfold prob_greater, probability_greater. change (R_sqrt.sqrt 2 * R_sqrt.sqrt (si * si + sj * sj))%R with (dev si sj). pose proof (dev_pos si sj Hi Hj) as Hd.
    assert (He : (-1 < erf ((mi - mj) / dev si sj) < 0)%R).
    { assert (0 < (mj - mi) / dev si sj)%R as Hp by (apply Rdiv_lt_0_compat; lra). apply erf_pos in Hp. destruct Herf as (Ho & _). specialize (Ho ((mj - mi) / dev si sj)%R). replace ((mi - mj) / dev si sj)%R with (- ((mj - mi) / dev si sj))%R by (unfold Rdiv; lra). lra. }
    destruct (decide _) as [H|H]; lra.
  Qed.
  Lemma fill2 m0 m1 s0 s1 : fill_prob erf [m0; m1] [s0; s1] 2 = Some [0%R; prob_greater erf m0 s0 m1 s1; (1 - prob_greater erf m0 s0 m1 s1)%R; 0%R].
  Proof using. reflexivity. Qed.
  Lemma fill3 m0 m1 m2 s0 s1 s2 : fill_prob erf [m0; m1; m2] [s0; s1; s2] 3 =
    Some [0%R; prob_greater erf m0 s0 m1 s1; prob_greater erf m0 s0 m2 s2; (1 - prob_greater erf m0 s0 m1 s1)%R; 0%R; prob_greater erf m1 s1 m2 s2; (1 - prob_greater erf m0 s0 m2 s2)%R; (1 - prob_greater erf m1 s1 m2 s2)%R; 0%R].
  Proof using. reflexivity. Qed.
  Lemma swap_same n i st : swap_step n i i st = Some st.
  Proof using. unfold swap_step. destruct st. by rewrite decide_True. Qed.
  Lemma swap2 x y (a b : nat) : swap_step 2 1 0 ([0%R; x; y; 0%R], [a; b]) = Some (if decide (x < y)%R then ([0%R; y; x; 0%R], [b; a]) else ([0%R; x; y; 0%R], [a; b])).
  Proof using. unfold swap_step. simpl. destruct (decide (x < y)%R); reflexivity. Qed.
  Lemma sorted2 m0 m1 s0 s1 (a b : nat) : (0 < s0)%R -> (0 < s1)%R -> get_sorted erf [m0; m1] [s0; s1] 2 [a; b] = Some (if decide (m0 < m1)%R then [b; a] else [a; b]).
  Proof using Herf.
    intros H0 H1. unfold get_sorted. rewrite fill2. cbn [mbind option_bind for_loop Nat.sub]. rewrite swap_same. cbn [mbind option_bind]. rewrite swap2.
    destruct (decide (m0 < m1)%R) as [Hl|Hl].
    - destruct (prob_lo m0 s0 m1 s1 H0 H1 Hl) as [_ Hp]. rewrite decide_True by lra. reflexivity.
    - destruct (prob_hi m0 s0 m1 s1 H0 H1 ltac:(lra)) as [_ Hp]. rewrite decide_False by lra. reflexivity.
  Qed.
  Section three.
    Context (a b c d e f : R) (x y z : nat).
    Let p := [0%R; a; b; c; 0%R; d; e; f; 0%R].
    Lemma swap3_01 : swap_step 3 0 1 (p, [x; y; z]) = Some (if decide (c < a)%R then ([0%R; c; b; a; 0%R; d; e; f; 0%R], [y; x; z]) else (p, [x; y; z])).
    Proof using. unfold swap_step. simpl. destruct (decide (c < a)%R); reflexivity. Qed.
    Lemma swap3_10 : swap_step 3 1 0 (p, [x; y; z]) = Some (if decide (a < c)%R then ([0%R; c; b; a; 0%R; d; e; f; 0%R], [y; x; z]) else (p, [x; y; z])).
    Proof using. unfold swap_step. simpl. destruct (decide (a < c)%R); reflexivity. Qed.
    Lemma swap3_20 : swap_step 3 2 0 (p, [x; y; z]) = Some (if decide (b < e)%R then ([0%R; a; e; c; 0%R; d; b; f; 0%R], [z; y; x]) else (p, [x; y; z])).
    Proof using. unfold swap_step. simpl. destruct (decide (b < e)%R); reflexivity. Qed.
    Lemma swap3_21 : swap_step 3 2 1 (p, [x; y; z]) = Some (if decide (d < f)%R then ([0%R; a; b; c; 0%R; f; e; d; 0%R], [x; z; y]) else (p, [x; y; z])).
    Proof using. unfold swap_step. simpl. destruct (decide (d < f)%R); reflexivity. Qed.
  End three.
  Lemma sorted3 m0 m1 m2 s0 s1 s2 (x y z : nat) : (0 < s0)%R -> (0 < s1)%R -> (0 < s2)%R -> (m0 < m2)%R -> (m2 < m1)%R -> get_sorted erf [m0; m1; m2] [s0; s1; s2] 3 [x; y; z] = Some [z; x; y].
  Proof using Herf.
    intros H0 H1 H2 L1 L2. unfold get_sorted. rewrite fill3. cbn [mbind option_bind for_loop Nat.sub].
    destruct (prob_lo m0 s0 m1 s1 H0 H1 ltac:(lra)) as [_ A]. destruct (prob_lo m0 s0 m2 s2 H0 H2 L1) as [_ B]. destruct (prob_hi m1 s1 m2 s2 H1 H2 ltac:(lra)) as [_ D].
    rewrite swap_same. cbn [mbind option_bind]. rewrite swap3_01, decide_False by lra. cbn [mbind option_bind]. rewrite swap3_10, decide_True by lra. cbn [mbind option_bind]. rewrite swap_same. cbn [mbind option_bind].
    rewrite swap3_20, decide_True by lra. cbn [mbind option_bind]. rewrite swap3_21, decide_False by lra. reflexivity.
  Qed.
End proofs.

(** the pieces are the layers *)
Lemma next_least ns : ∀ acc s a, acc <= s -> s < acc + total (take a ns) -> next_end ns acc s <= acc + total (take a ns).
Proof.
  induction ns as [|n ns IH]; intros acc s a H1 H2; [rewrite take_nil in H2 |- *; cbn in *; lia|]. destruct a as [|a]; [cbn in H2; lia|]. cbn [take total next_end] in *.
  destruct (decide _) as [Hd|Hd]; [lia|]. specialize (IH (acc + n) s a). lia.
Qed.
Lemma next_at ns : ∀ acc a n, ns !! a = Some n -> 0 < n -> next_end ns acc (acc + total (take a ns)) = acc + total (take a ns) + n.
Proof.
  induction ns as [|k ns IH]; intros acc a n E Hn; [done|]. destruct a as [|a].
  - injection E as ->. cbn. rewrite decide_True by lia. lia.
  - cbn [next_end take total]. rewrite decide_False by lia. specialize (IH (acc + k) a n E Hn). replace (acc + (k + total (take a ns))) with (acc + k + total (take a ns)) by lia. done.
Qed.
Lemma next_range ns : ∀ acc s, acc <= s -> s <= acc + total ns -> s <= next_end ns acc s <= acc + total ns.
Proof.
  induction ns as [|n ns IH]; intros acc s H1 H2; [cbn in *; lia|]. cbn [next_end total] in *. destruct (decide _) as [Hd|Hd]; [lia|]. specialize (IH (acc + n) s). lia.
Qed.
Fixpoint later (ns : list nat) (acc s : nat) : nat := match ns with [] => 0 | n :: r => (if decide (s < acc + n) then 1 else 0) + later r (acc + n) s end.
Lemma later_mono ns : ∀ acc s s', s <= s' -> later ns acc s' <= later ns acc s.
Proof. induction ns as [|n ns IH]; intros acc s s' H; [done|]. cbn. specialize (IH (acc + n) s s' H). destruct (decide _), (decide _); lia. Qed.
Lemma later_next ns : ∀ acc s, s < next_end ns acc s -> acc <= s -> later ns acc (next_end ns acc s) < later ns acc s.
Proof.
  induction ns as [|n ns IH]; intros acc s H Ha; [cbn in *; lia|]. cbn [next_end later] in *. destruct (decide (s < acc + n)) as [Hd|Hd].
  - rewrite decide_False by lia. pose proof (later_mono ns (acc + n) s (acc + n)). lia.
  - rewrite (decide_False (P := next_end _ _ _ < _)) by lia. specialize (IH (acc + n) s H ltac:(lia)). lia.
Qed.
Lemma later_len ns : ∀ acc s, later ns acc s <= length ns.
Proof. induction ns as [|n ns IH]; intros acc s; [done|]. cbn. specialize (IH (acc + n) s). destruct (decide _); lia. Qed.
Fixpoint chain (s : nat) (ps : list (nat * nat)) (t : nat) : Prop := match ps with [] => s = t | (a, b) :: r => a = s /\ a <= b /\ chain b r t end.
Lemma pieces_ok ns : ∀ fuel s, s <= total ns -> later ns 0 s < fuel -> ∃ ps, pieces fuel ns s = Some ps /\ chain s ps (total ns) /\
  (∀ a n, ns !! a = Some n -> 0 < n -> s <= total (take a ns) -> (total (take a ns), total (take a ns) + n) ∈ ps).
Proof.
  induction fuel as [|fuel IH]; intros s Hs Hl; [lia|]. cbn [pieces]. pose proof (next_range ns 0 s ltac:(lia) ltac:(lia)) as Hr. destruct (decide (s = next_end ns 0 s)) as [He|He].
  - exists [(s, next_end ns 0 s)]. split; [done|]. assert (s = total ns) as Es.
    { destruct (decide (s = total ns)) as [|Hne]; [done|]. exfalso. assert (Hx : ∀ ns acc s, acc <= s -> s < acc + total ns -> s < next_end ns acc s).
      { clear. induction ns as [|n ns IH]; intros acc s H1 H2; [cbn in *; lia|]. cbn [next_end total] in *. destruct (decide _); [lia|]. apply IH; lia. }
      specialize (Hx ns 0 s). lia. }
    split; [cbn; lia|]. intros a n E Hn Hle. exfalso. assert (total (take a ns) + n <= total ns).
    { clear -E. revert a E. induction ns as [|k ns IH]; intros a E; [done|]. destruct a; [injection E as ->; cbn; lia|]. cbn. specialize (IH a E). cbn in IH. lia. }
    lia.
  - destruct (IH (next_end ns 0 s)) as (ps & -> & Hc & Hin); [lia|pose proof (later_next ns 0 s); lia|]. cbn [mbind option_bind]. eexists. split; [done|]. split; [cbn; split; [done|split; [lia|done]]|].
    intros a n E Hn Hle. destruct (decide (s = total (take a ns))) as [->|Hne].
    + apply elem_of_cons. left. f_equal. symmetry. by apply (next_at ns 0).
    + apply elem_of_list_further. apply Hin; [done|done|]. pose proof (next_least ns 0 s a). lia.
Qed.
(** work on the pieces *)
Lemma slice_length {A} (l : list A) a b : b <= length l -> length (slice l a b) = b - a.
Proof. intros H. unfold slice. rewrite take_length, drop_length. lia. Qed.
Lemma slice_take {A} (l : list A) a b : a <= b -> slice l a b = drop a (take b l).
Proof. intros H. unfold slice. rewrite take_drop_commute. do 2 f_equal. lia. Qed.
Lemma on_slice_ok {A} (f : list A -> option (list A)) a b l r : a <= b -> b <= length l -> f (slice l a b) = Some r -> length r = b - a ->
  ∃ l', on_slice a b f l = Some l' /\ length l' = length l /\ take a l' = take a l /\ slice l' a b = r.
Proof.
  intros H1 H2 E Lr. unfold on_slice. rewrite decide_True by done. rewrite E. cbn [mbind option_bind]. eexists. split; [done|]. split; [rewrite !app_length, take_length, drop_length; lia|]. split.
  - rewrite take_app_le by (rewrite take_length; lia). rewrite take_take. f_equal. lia.
  - unfold slice. rewrite drop_app_ge by (rewrite take_length; lia). rewrite take_length, Nat.min_l, Nat.sub_diag, drop_0 by lia. rewrite take_app_le by lia. rewrite take_ge by lia. done.
Qed.
Lemma chain_le ps : ∀ s t, chain s ps t -> s <= t.
Proof. induction ps as [|[a b] ps IH]; intros s t H; cbn in H; [lia|]. destruct H as (-> & H1 & H2). apply IH in H2. lia. Qed.
Lemma on_pieces_ok {A} (f : nat -> nat -> list A -> option (list A)) (Q : nat -> nat -> list A -> Prop) t : ∀ ps s l,
  (∀ a b l, (a, b) ∈ ps -> a <= b -> b <= length l -> ∃ l', f a b l = Some l' /\ length l' = length l /\ take a l' = take a l /\ Q a b (slice l' a b)) ->
  chain s ps t -> t <= length l -> ∃ l', on_pieces f ps l = Some l' /\ length l' = length l /\ take s l' = take s l /\ ∀ a b, (a, b) ∈ ps -> Q a b (slice l' a b).
Proof.
  induction ps as [|[a b] ps IH]; intros s l Hf Hc Ht; cbn [on_pieces].
  - exists l. split; [done|]. split; [done|]. split; [done|]. intros a b H. by apply elem_of_nil in H.
  - destruct Hc as (-> & Hab & Hc). pose proof (chain_le _ _ _ Hc) as Hbt. destruct (Hf s b l) as (l1 & -> & L1 & T1 & Q1); [apply elem_of_list_here|done|lia|]. cbn [mbind option_bind].
    destruct (IH b l1) as (l2 & E2 & L2 & T2 & Q2); [intros a' b' l' Hin; apply Hf; by apply elem_of_list_further|done|lia|]. fold (@on_pieces A f). rewrite E2. exists l2. split; [done|]. split; [lia|]. split.
    + rewrite <- T1. replace s with (s `min` b) by lia. rewrite <- !take_take, T2. done.
    + intros a' b' Hin. apply elem_of_cons in Hin as [[= -> ->]|Hin]; [|by apply Q2]. rewrite slice_take by done. rewrite T2, <- slice_take by done. done.
Qed.
Lemma set_ok step (v2 : list nat) n (v1 : vec) : length v1 = n -> v2 ≡ₚ seq 0 n -> ∃ v, set_by_rank step v2 n v1 = Some v /\ length v = n /\ ∀ i x, v2 !! i = Some x -> el v x = (INR i * step)%R.
Proof.
  intros L1 Hp. pose proof (Permutation_length Hp) as L2. rewrite seq_length in L2. assert (Hnd : NoDup v2) by (rewrite Hp; apply NoDup_seq).
  assert (Hx : ∀ i x, v2 !! i = Some x -> x < n). { intros i x E. apply elem_of_list_lookup_2 in E. rewrite Hp in E. apply elem_of_seq in E. lia. }
  unfold set_by_rank. destruct (for_loop_inv (λ k (v : vec), length v = n /\ ∀ i x, i < k -> v2 !! i = Some x -> el v x = (INR i * step)%R) (λ i v1, x ← rd v2 i; wr v1 x (INR i * step)%R) n 0 v1) as (v & -> & Lv & Hv).
  - split; [done|]. intros; lia.
  - intros i v Hi [Lv Hv]. destruct (lookup_lt_is_Some_2 v2 i) as [x Ex]; [lia|]. unfold rd. rewrite Ex. cbn [mbind option_bind]. rewrite wr_Some by (rewrite Lv; by apply (Hx i)). eexists. split; [done|]. split; [by rewrite insert_length|].
    intros k y Hk Ey. destruct (decide (k = i)) as [->|Hne].
    + assert (y = x) as -> by congruence. apply el_lookup. apply list_lookup_insert. rewrite Lv. by apply (Hx i).
    + assert (y <> x) by (intros ->; apply Hne; by apply (NoDup_lookup v2 k i x)). rewrite <- (Hv k y) by (done || lia). unfold el. rewrite !nth_lookup. by rewrite list_lookup_insert_ne.
  - exists v. split; [done|]. split; [done|]. intros i x E. apply Hv; [apply lookup_lt_Some in E; lia|done].
Qed.
Lemma mapM_all {A B} (f : A -> option B) (g : A -> B) l : (∀ x, x ∈ l -> f x = Some (g x)) -> mapM f l = Some (map g l).
Proof. induction l as [|x l IH]; intros H; [done|]. cbn. rewrite (H x) by apply elem_of_list_here. cbn. rewrite IH by (intros y Hy; apply H; by apply elem_of_list_further). done. Qed.
Definition col (values : list vec) (i j : nat) : R := score_of values j i.
Lemma row_at (values : list vec) n j : Forall (λ r, n <= length r) values -> j < length values -> rd values j = Some (nth j values []) /\ n <= length (nth j values []).
Proof. intros H Hj. destruct (lookup_lt_is_Some_2 values j Hj) as [r Er]. unfold rd. rewrite Er. erewrite nth_lookup_Some by exact Er. split; [done|]. by eapply list.Forall_lookup_1 in H; [|exact Er]. Qed.
Lemma col_sums_ok values n : Forall (λ r, n <= length r) values -> col_sums values n = Some (map (λ i, sumn (length values) (col values i)) (seq 0 n)).
Proof.
  intros H. unfold col_sums. apply mapM_all. intros i Hi. apply elem_of_seq in Hi.
  destruct (for_loop_inv (λ k acc, acc = sumn k (col values i)) (λ j acc, row ← rd values j; x ← rd row i; Some (acc + x)%R) (length values) 0 0%R) as (s & -> & ->); [done| |done].
  intros j acc Hj ->. destruct (row_at values n j H) as [-> Hl]; [lia|]. cbn [mbind option_bind]. rewrite rd_el by lia. cbn [mbind option_bind]. eexists. split; [done|]. done.
Qed.
Lemma col_devs_ok values means n : Forall (λ r, n <= length r) values -> n <= length means -> col_devs values means n = Some (map (λ i, sumn (length values) (λ j, (col values i j - el means i) * (col values i j - el means i))%R) (seq 0 n)).
Proof.
  intros H Hm. unfold col_devs. apply mapM_all. intros i Hi. apply elem_of_seq in Hi.
  destruct (for_loop_inv (λ k acc, acc = sumn k (λ j, (col values i j - el means i) * (col values i j - el means i))%R) (λ j acc, row ← rd values j; x ← rd row i; m ← rd means i; Some (acc + (x - m) * (x - m))%R) (length values) 0 0%R) as (s & -> & ->); [done| |done].
  intros j acc Hj ->. destruct (row_at values n j H) as [-> Hl]; [lia|]. cbn [mbind option_bind]. rewrite !rd_el by lia. cbn [mbind option_bind]. eexists. split; [done|]. done.
Qed.
Lemma copy_row_ok {A} n (src : list A) rows : length src = n -> Forall (λ r : list A, length r = n) rows -> mapM (copy_row n src) rows = Some (repeat src (length rows)).
Proof.
  intros Ls H. induction H as [|r rows Hr H IH]; [done|]. assert (E : copy_row n src r = Some src) by (unfold copy_row; rewrite decide_True by lia; by rewrite take_ge, drop_ge, app_nil_r by lia). cbn. rewrite E. cbn. by rewrite IH.
Qed.
Lemma readapt_ok erf values index n ps : Forall (λ r, n <= length r) values -> length index = n -> chain 0 ps n ->
  ∃ ix, readapt erf values index n ps = Some ix /\ length ix = n /\ ∀ a b, (a, b) ∈ ps -> slice ix a b ≡ₚ seq 0 (b - a).
Proof.
  intros Hv Li Hc. unfold readapt. rewrite col_sums_ok by done. cbn [mbind option_bind].
  destruct (on_pieces_ok (λ a b, on_slice a b (λ v : vec, Some (map (λ x, x / INR (b - a))%R v))) (λ _ _ _, True) n ps 0 (map (λ i, sumn (length values) (col values i)) (seq 0 n))) as (means & -> & Lm & _).
  { intros a b l _ H1 H2. destruct (on_slice_ok (λ v : vec, Some (map (λ x, x / INR (b - a))%R v)) a b l _ H1 H2 eq_refl) as (l' & E & L & T & _); [rewrite map_length, slice_length by done; done|]. by exists l'. }
  { done. } { by rewrite map_length, seq_length. }
  rewrite map_length, seq_length in Lm. cbn [mbind option_bind]. rewrite col_devs_ok by (done || lia). cbn [mbind option_bind]. set (std := map _ (seq 0 n)). assert (Ls : length std = n) by (unfold std; by rewrite map_length, seq_length). clearbody std.
  match goal with |- context [on_pieces ?f ps index] => destruct (on_pieces_ok f (λ a b s, s ≡ₚ seq 0 (b - a)) n ps 0 index) as (ix & E & Lx & _ & Hx) end.
  - intros a b l Hin H1 H2. assert (Hbn : b <= n). { clear -Hc Hin. revert Hc. generalize 0. induction ps as [|[a' b'] ps IH]; intros s Hc; [by apply elem_of_nil in Hin|]. destruct Hc as (-> & H1 & H2). apply elem_of_cons in Hin as [[= -> ->]|Hin]; [by apply chain_le in H2|by eapply IH]. }
    destruct (on_slice_ok (λ _ : list nat, Some (seq 0 (b - a))) a b l _ H1 H2 eq_refl) as (l1 & -> & L1 & T1 & S1); [apply seq_length|]. cbn [mbind option_bind]. destruct (decide (a <> b)) as [Hne|He].
    + destruct (get_sorted_perm erf (slice means a b) (map (λ x, x / INR (b - a))%R (slice std a b)) (b - a) (slice l1 a b)) as (r & Er & Hr); [rewrite slice_length; lia|rewrite map_length, slice_length; lia|rewrite S1; apply seq_length|].
      destruct (on_slice_ok (get_sorted erf (slice means a b) (map (λ x, x / INR (b - a))%R (slice std a b)) (b - a)) a b l1 r H1 ltac:(lia) Er) as (l2 & -> & L2 & T2 & S2); [rewrite (Permutation_length Hr), slice_length; lia|].
      exists l2. split; [done|]. split; [lia|]. split; [congruence|]. rewrite S2, Hr, S1. done.
    + exists l1. split; [done|]. split; [done|]. split; [done|]. by rewrite S1.
  - done.
  - lia.
  - exists ix. split; [done|]. split; [lia|done].
Qed.
Lemma readapter_ok erf values ns step indices scores : indices <> [] -> scores <> [] -> Forall (λ r, total ns <= length r) values -> Forall (λ r, length r = total ns) indices -> Forall (λ r, length r = total ns) scores ->
  ∃ ix sc, readapter erf values ns (total ns) step indices scores = Some (repeat ix (length indices), repeat sc (length scores)) /\ length ix = total ns /\ length sc = total ns /\
    ∀ a n o, ns !! a = Some n -> o = total (take a ns) -> slice ix o (o + n) ≡ₚ seq 0 n /\ ∀ i x, slice ix o (o + n) !! i = Some x -> el (slice sc o (o + n)) x = (INR i * step)%R.
Proof.
  intros Ni Ns Hv Hi Hs. unfold readapter. destruct (pieces_ok ns (S (length ns)) 0) as (ps & -> & Hc & Hin); [lia|pose proof (later_len ns 0 0); lia|]. cbn [mbind option_bind].
  destruct indices as [|index ir]; [done|]. destruct scores as [|score sr]; [done|]. apply list.Forall_cons in Hi as [Li Hi]. apply list.Forall_cons in Hs as [Lsc Hs].
  destruct (readapt_ok erf values index (total ns) ps Hv Li Hc) as (ix & -> & Lx & Hx). cbn [mbind option_bind].
  destruct (on_pieces_ok (λ a b, on_slice a b (set_by_rank step (slice ix a b) (b - a))) (λ a b s, ∀ i x, slice ix a b !! i = Some x -> el s x = (INR i * step)%R) (total ns) ps 0 score) as (sc & -> & Ls & _ & Hsc).
  { intros a b l Hab H1 H2. destruct (set_ok step (slice ix a b) (b - a) (slice l a b)) as (v & Ev & Lv & Hvx); [by rewrite slice_length|by apply Hx|].
    destruct (on_slice_ok _ a b l v H1 H2 Ev Lv) as (l' & E & L & T & S). exists l'. rewrite S. done. }
  { done. } { lia. }
  cbn [mbind option_bind]. rewrite !copy_row_ok by (done || lia). cbn [mbind option_bind]. exists ix, sc. split; [done|]. split; [done|]. split; [lia|]. intros a n o E ->. destruct n as [|n].
  - rewrite Nat.add_0_r. unfold slice. rewrite Nat.sub_diag. split; [done|]. intros i x. by rewrite take_0.
  - pose proof (Hin a (S n) E ltac:(lia) ltac:(lia)) as Hp. specialize (Hx _ _ Hp). specialize (Hsc _ _ Hp). rewrite Nat.add_comm, Nat.add_sub in Hx. rewrite (Nat.add_comm _ (S n)). split; [done|]. by rewrite (Nat.add_comm _ (S n)) in Hsc.
Qed.
