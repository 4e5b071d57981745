(** C80: the backward pass of multi-head attention takes apart what the forward pass has interleaved *)
From Verif Require Import NumLib3 Lstm_Window Attn_Model Attn_Props Heads_Model Heads_Spec.
From Coq Require Import Lia Lra.
Open Scope nat_scope.

Lemma copy_ok src os od m dst : os + m <= length src -> od + m <= length dst ->
  ∃ d, copy_array src os dst od m = Some d /\ length d = length dst /\ ∀ p, el d p = if decide (od <= p < od + m) then el src (os + (p - od)) else el dst p.
Proof.
  intros H1 H2. unfold copy_array.
  destruct (for_loop_inv (λ i d, length d = length dst /\ ∀ p, el d p = if decide (od <= p < od + i) then el src (os + (p - od)) else el dst p)
    (λ i d, x ← rd src (os + i); wr d (od + i) x) m 0 dst) as (d & E & Ld & Hd).
  - split; [done|]. intros p. rewrite decide_False by lia. done.
  - intros i d Hi [Ld Hd]. rewrite (rd_el src) by lia. cbn [mbind option_bind]. rewrite wr_Some by lia. eexists. split; [done|].
    split; [by rewrite insert_length|]. intros p. destruct (decide (p = od + i)) as [->|Hne].
    + rewrite el_upd_eq by lia. rewrite decide_True by lia. f_equal. lia.
    + rewrite el_upd_ne by done. rewrite Hd. destruct (decide (od <= p < od + i)); [rewrite decide_True by lia|rewrite decide_False by lia]; done.
  - exists d. split; [exact E|]. split; [done|]. intros p. by rewrite Hd.
Qed.
Lemma block_le a w i : i < a -> i * w + w <= a * w.
Proof. intros H. replace (i * w + w) with ((i + 1) * w) by lia. apply Nat.mul_le_mono_r. lia. Qed.

(** Equal widths: channel c of token i of head j of the error goes to the place where the head has it.  *)
Theorem C80_split : ∀ oe n heads w, length oe = heads * n * w ->
  ∃ t, split_heads oe n heads w w = Some t /\ length t = heads * n * w /\
    ∀ i j c, i < n -> j < heads -> c < w -> el t (by_head n heads w i j c) = el oe (by_token n heads w i j c).
Proof.
  intros oe n heads w HL. unfold split_heads, by_head, by_token.
  destruct (for_loop_inv2 (λ x t, length t = heads * n * w /\ ∀ i j c, i * heads + j < x -> i < n -> j < heads -> c < w -> el t ((j * n + i) * w + c) = el oe ((i * heads + j) * w + c))
    (λ i j t, copy_array oe (i * heads * w + j * w) t (i * w + j * n * w) w) n heads 0 0 (replicate (heads * n * w) 0%R)) as (t & E & Lt & Ht).
  - split; [apply replicate_length|]. intros; lia.
  - intros i j t Hi Hj [Lt Ht]. cbn [Nat.add]. pose proof (block_le (n * heads) w (i * heads + j) (flat_lt n heads i j Hi Hj)) as B1. pose proof (block_le (heads * n) w (j * n + i) (flat_lt heads n j i Hj Hi)) as B2.
    destruct (copy_ok oe (i * heads * w + j * w) (i * w + j * n * w) w t) as (d & E & Ld & Hd); [lia|lia|]. exists d. split; [done|]. split; [lia|]. intros i' j' c Hx Hi' Hj' Hc. rewrite Hd. destruct (decide _) as [Hin|Hout].
    + assert (Hs : j' * n + i' = j * n + i). { apply (flat_inj w (j' * n + i') c (j * n + i) ((j' * n + i') * w + c - (i * w + j * n * w))); lia. }
      apply flat_inj in Hs as [-> ->]; [|done|done]. f_equal. lia.
    + apply Ht; [|done|done|done]. destruct (decide (i' * heads + j' = i * heads + j)) as [Ee|]; [|lia]. apply flat_inj in Ee as [-> ->]; [lia|done|done].
  - exists t. split; [exact E|]. split; [done|]. intros i j c Hi Hj Hc. apply Ht; [|done|done|done]. by apply flat_lt.
Qed.
Print Assumptions C80_split.
Example C80_split_case : ∃ t, split_heads [1; 2; 3; 4]%R 2 2 1 1 = Some t /\ el t 1 = 3%R /\ el t 2 = 2%R.
Proof. destruct (C80_split [1; 2; 3; 4]%R 2 2 1 eq_refl) as (t & E & _ & H). exists t. split; [done|]. split; [apply (H 1 0 0); lia|apply (H 0 1 0); lia]. Qed.

(** So the backward pass undoes the forward pass: taking apart the interleaved heads gives the heads.  *)
Theorem C80_round_trip : ∀ output n heads w, length output = heads * n * w -> ∃ o, reshape_heads output n heads w w = Some o /\ split_heads o n heads w w = Some output.
Proof.
  intros output n heads w HL. destruct (C31_heads_are_interleaved output n heads w HL) as (o & E & Lo & Ho). destruct (C80_split o n heads w ltac:(lia)) as (t & Et & Lt & Ht). exists o. split; [done|]. rewrite Et. f_equal.
  apply (list_el_eq t output); [lia|]. intros p Hp. rewrite Lt in Hp. destruct (flat_split (heads * n) w p Hp) as (H1 & H2 & H3). destruct (flat_split heads n (p / w) H1) as (H4 & H5 & H6).
  set (c := Nat.modulo p w) in *. set (q := Nat.div p w) in *. set (i := Nat.modulo q n) in *. set (j := Nat.div q n) in *. clearbody c q i j. subst q. subst p.
  specialize (Ht i j c H5 H4 H2). unfold by_head, by_token in Ht. rewrite Ht. specialize (Ho i j c H5 H4 H2). replace ((i * heads + j) * w + c) with (i * heads * w + j * w + c) by lia. rewrite Ho. f_equal. lia.
Qed.
Print Assumptions C80_round_trip.
Example C80_round_trip_case : ∃ o, reshape_heads [1; 2; 3; 4; 5; 6]%R 3 2 1 1 = Some o /\ split_heads o 3 2 1 1 = Some [1; 2; 3; 4; 5; 6]%R.
Proof. by apply C80_round_trip. Qed.

(** Keys wider than values: the offset uses the width of the keys, and the last head is written past the end of the temporary array, which has heads*n*ve entries.  *)
Theorem C80_wide_keys_refuted : ∀ oe n heads ke ve, 0 < ve < ke -> 2 <= n * heads -> split_heads oe n heads ke ve = None.
Proof.
  intros oe n heads ke ve Hke Hnh. destruct (split_heads oe n heads ke ve) as [t|] eqn:E; [|done]. exfalso. unfold split_heads in E.
  assert (Hn : 0 < n) by (destruct n; lia). assert (Hh : 0 < heads) by (destruct heads; lia).
  assert (Hlen : ∀ src os od m (d d' : list R), copy_array src os d od m = Some d' -> length d' = length d /\ (0 < m -> od + m <= length d)).
  { intros src os od m. unfold copy_array. induction m as [|m IH]; intros d d' H; [cbn in H; injection H as ->; split; [done|lia]|]. rewrite for_loop_S_r in H. apply bind_Some in H as (d1 & H1 & H). apply IH in H1 as [L1 _]. rewrite Nat.add_0_l in H. apply bind_Some in H as (x & _ & H). apply wr_inv in H as [Hlt ->]. rewrite insert_length. split; [done|]. intros _. lia. }
  assert (Hrow : ∀ i k (d d' : list R), for_loop k 0 (λ j t, copy_array oe (i * heads * ve + j * ve) t (i * ke + j * n * ke) ve) d = Some d' -> length d' = length d /\ (0 < k -> i * ke + (k - 1) * n * ke + ve <= length d)).
  { intros i k. induction k as [|k IH]; intros d d' H; [cbn in H; injection H as ->; split; [done|lia]|]. rewrite for_loop_S_r in H. apply bind_Some in H as (d1 & H1 & H). apply IH in H1 as [L1 _]. rewrite Nat.add_0_l in H. apply Hlen in H as [L2 H]. split; [lia|]. intros _. specialize (H ltac:(lia)). replace (S k - 1) with k by lia. lia. }
  assert (Hall : ∀ k (d d' : list R), for_loop k 0 (λ i, for_loop heads 0 (λ j t, copy_array oe (i * heads * ve + j * ve) t (i * ke + j * n * ke) ve)) d = Some d' -> length d' = length d /\ (0 < k -> (k - 1) * ke + (heads - 1) * n * ke + ve <= length d)).
  { intros k. induction k as [|k IH]; intros d d' H; [cbn in H; injection H as ->; split; [done|lia]|]. rewrite for_loop_S_r in H. apply bind_Some in H as (d1 & H1 & H). apply IH in H1 as [L1 _]. rewrite Nat.add_0_l in H. apply Hrow in H as [L2 H]. split; [lia|]. intros _. specialize (H Hh). replace (S k - 1) with k by lia. lia. }
  apply Hall in E as [_ E]. specialize (E Hn). rewrite replicate_length in E. assert (H1 : (n - 1) * ke + (heads - 1) * n * ke = (n * heads - 1) * ke) by nia. rewrite H1 in E. nia.
Qed.
Print Assumptions C80_wide_keys_refuted.
Example C80_wide_keys_case : split_heads [1; 2; 3; 4]%R 2 2 3 1 = None.
Proof. apply C80_wide_keys_refuted; lia. Qed.

(** Keys narrower than values: the tokens overlap.  The entry that belongs to channel ke of the first token of the first head holds channel 0 of the second token instead.  *)
Theorem C80_narrow_keys_refuted : ∀ oe n heads ke ve, length oe = heads * n * ve -> 0 < ke < ve -> 2 <= n -> 1 <= heads ->
  ∃ t, split_heads oe n heads ke ve = Some t /\ el t (by_head n heads ve 0 0 ke) = el oe (by_token n heads ve 1 0 0).
Proof.
  intros oe n heads ke ve HL Hke Hn Hh. unfold split_heads, by_head, by_token.
  destruct (for_loop_inv2 (λ x t, length t = heads * n * ve /\ (heads < x -> el t ke = el oe (heads * ve)))
    (λ i j t, copy_array oe (i * heads * ve + j * ve) t (i * ke + j * n * ke) ve) n heads 0 0 (replicate (heads * n * ve) 0%R)) as (t & E & Lt & Ht).
  - split; [apply replicate_length|]. intros; lia.
  - intros i j t Hi Hj [Lt Ht]. cbn [Nat.add]. pose proof (block_le (n * heads) ve (i * heads + j) (flat_lt n heads i j Hi Hj)) as B1. pose proof (block_le (heads * n) ve (j * n + i) (flat_lt heads n j i Hj Hi)) as B2.
    assert (B3 : (j * n + i) * ke <= (j * n + i) * ve) by (apply Nat.mul_le_mono_l; lia).
    destruct (copy_ok oe (i * heads * ve + j * ve) (i * ke + j * n * ke) ve t) as (d & E & Ld & Hd); [lia|lia|]. exists d. split; [done|]. split; [lia|]. intros Hx. rewrite Hd.
    destruct (decide (i = 1 /\ j = 0)) as [[-> ->]|Hne].
    + rewrite decide_True by lia. f_equal. lia.
    + assert (Hi1 : 1 <= i) by (destruct i; lia). assert (Hlt : heads < i * heads + j) by (destruct i as [|[|i]]; lia). rewrite decide_False; [by apply Ht|]. intros [Hc _]. assert (2 <= j * n + i) by (destruct i as [|[|i]]; [lia| |lia]; destruct j; lia). assert (2 * ke <= (j * n + i) * ke) by (apply Nat.mul_le_mono_r; lia). lia.
  - exists t. split; [exact E|]. replace ((0 * n + 0) * ve + ke) with ke by lia. replace ((1 * heads + 0) * ve + 0) with (heads * ve) by lia. apply Ht. nia.
Qed.
Print Assumptions C80_narrow_keys_refuted.
Example C80_narrow_keys_case : ∃ t, split_heads [1; 2; 3; 4]%R 2 1 1 2 = Some t /\ el t 1 = 3%R.
Proof. destruct (C80_narrow_keys_refuted [1; 2; 3; 4]%R 2 1 1 2 eq_refl) as (t & E & H); [lia|lia|lia|]. by exists t. Qed.

(** Forward pass with keys narrower than values: each place gets the entry at the offset of the narrower width, so that channel 0 of the second token of the first head is channel ke of the first token.  *)
Theorem C80_forward_narrow_keys_refuted : ∀ output n heads ke ve, length output = heads * n * ve -> 0 < ke < ve -> 2 <= n -> 1 <= heads ->
  ∃ o, reshape_heads output n heads ke ve = Some o /\ length o = length output /\
    (∀ i j c, i < n -> j < heads -> c < ve -> el o (by_token n heads ve i j c) = el output ((j * n + i) * ke + c)) /\
    el o (by_token n heads ve 1 0 0) = el output (by_head n heads ve 0 0 ke).
Proof.
  intros output n heads ke ve HL Hke Hn Hh. unfold reshape_heads, by_token, by_head.
  destruct (for_loop_inv2 (λ x t, length t = heads * n * ve /\ ∀ i j c, i * heads + j < x -> i < n -> j < heads -> c < ve -> el t ((i * heads + j) * ve + c) = el output ((j * n + i) * ke + c))
    (λ i j t, copy_array output (i * ke + j * n * ke) t (i * heads * ve + j * ve) ve) n heads 0 0 (replicate (heads * n * ve) 0%R)) as (t & E & Lt & Ht).
  - split; [apply replicate_length|]. intros; lia.
  - intros i j t Hi Hj [Lt Ht]. cbn [Nat.add]. pose proof (block_le (n * heads) ve (i * heads + j) (flat_lt n heads i j Hi Hj)) as B1. pose proof (block_le (heads * n) ve (j * n + i) (flat_lt heads n j i Hj Hi)) as B2.
    assert (B3 : (j * n + i) * ke <= (j * n + i) * ve) by (apply Nat.mul_le_mono_l; lia).
    destruct (copy_ok output (i * ke + j * n * ke) (i * heads * ve + j * ve) ve t) as (d & E & Ld & Hd); [lia|lia|]. exists d. split; [done|]. split; [lia|]. intros i' j' c Hx Hi' Hj' Hc. rewrite Hd. destruct (decide _) as [Hin|Hout].
    + assert (Hs : i' * heads + j' = i * heads + j). { apply (flat_inj ve (i' * heads + j') c (i * heads + j) ((i' * heads + j') * ve + c - (i * heads * ve + j * ve))); lia. }
      apply flat_inj in Hs as [-> ->]; [|done|done]. f_equal. lia.
    + apply Ht; [|done|done|done]. destruct (decide (i' * heads + j' = i * heads + j)) as [Ee|]; [|lia]. apply flat_inj in Ee as [-> ->]; [lia|done|done].
  - rewrite E. cbn [mbind option_bind]. destruct (copy_ok t 0 0 (n * heads * ve) output) as (o & Eo & Lo & Ho); [lia|lia|].
    assert (Hall : ∀ i j c, i < n -> j < heads -> c < ve -> el o ((i * heads + j) * ve + c) = el output ((j * n + i) * ke + c)).
    { intros i j c Hi Hj Hc. rewrite Ho. pose proof (block_le (n * heads) ve (i * heads + j) (flat_lt n heads i j Hi Hj)). rewrite decide_True by lia. rewrite Nat.sub_0_r, Nat.add_0_l. apply Ht; [|done|done|done]. by apply flat_lt. }
    exists o. split; [done|]. split; [done|]. split; [done|]. rewrite (Hall 1 0 0) by lia. f_equal. lia.
Qed.
Print Assumptions C80_forward_narrow_keys_refuted.
Example C80_forward_narrow_keys_case : ∃ o, reshape_heads [1; 2; 3; 4]%R 2 1 1 2 = Some o /\ el o 2 = 2%R.
Proof. destruct (C80_forward_narrow_keys_refuted [1; 2; 3; 4]%R 2 1 1 2 eq_refl) as (o & E & _ & _ & H); [lia|lia|lia|]. by exists o. Qed.
