(** Proofs about the choice at the root over the exact reals and about the policy. *)
From Coq Require Import Reals Lra.
From Verif Require Import RealSum Sort_Model Sort_Proofs Mcts_Model Mcts_Spec Mcts_Proofs Mcts2_Proofs Mcts3_Proofs BaseLemmas.
Open Scope nat_scope.

(** * Sorting equal values *)
Lemma merge_loop_le l r : (forall x y, x ∈ l -> y ∈ r -> (x.1 <= y.1)%Z) -> merge_loop l r = map snd l ++ map snd r.
Proof.
  revert r. induction l as [|x l IH]; intros r H; [by destruct r|]. destruct r as [|y r]; [cbn; by rewrite app_nil_r|]. cbn.
  assert ((x.1 <= y.1)%Z) as E by (apply H; apply elem_of_list_here). apply Z.leb_le in E. rewrite E. f_equal.
  apply (IH (y :: r)). intros x' y' Hx' Hy'. apply H; [by apply elem_of_list_further|done].
Qed.
Lemma zip_snd {X Y} (l : list X) (m : list Y) : length m <= length l -> map snd (zip l m) = m.
Proof. revert m. induction l as [|x l IH]; intros [|y m] H; cbn in *; [done|lia|done|]. f_equal. apply IH. lia. Qed.
Lemma merge_seg_zeros values ind left middle right r : Forall (fun v => v = 0%Z) values -> length values = length ind ->
  merge_seg 1 values ind left middle right = Some r -> r = ind.
Proof.
  intros H0 Hl. unfold merge_seg. case_decide as E; [|done]. intros [= <-].
  assert (Hz : forall (a n : nat) (li : list nat) x, x ∈ zip (map (to_int 1) (take n (drop a values))) li -> x.1 = 0%Z).
  { intros a n li x Hx. apply elem_of_list_lookup in Hx as (i & Hi). apply lookup_zip_with_Some in Hi as (u & v & -> & Hu & Hv). cbn.
    change (map (to_int 1)) with (fmap (M := list) (to_int 1)) in Hu. apply list_lookup_fmap_Some in Hu as (u' & Hu' & ->).
    rewrite list.Forall_forall in H0. rewrite (H0 u'); [done|].
    apply elem_of_list_lookup_2 in Hu'. apply elem_of_take in Hu' as (j & Hj & _). rewrite lookup_drop in Hj. by eapply elem_of_list_lookup_2. }
  rewrite merge_loop_le by (intros x y Hx Hy; rewrite (Hz _ _ _ _ Hx), (Hz _ _ _ _ Hy); lia).
  rewrite !zip_snd by (rewrite map_length, !take_length, !drop_length; lia).
  replace (drop (right + 1) ind) with (drop (right + 1 - (middle + 1)) (drop (middle + 1) ind)) by (rewrite drop_drop; f_equal; lia).
  rewrite <- app_assoc, take_drop.
  replace (drop (middle + 1) ind) with (drop (middle + 1 - left) (drop left ind)) by (rewrite drop_drop; f_equal; lia).
  by rewrite !take_drop.
Qed.
Lemma merge_sort_zeros values fuel ind low high r : Forall (fun v => v = 0%Z) values -> length values = length ind ->
  merge_sort 1 fuel values ind low high = Some r -> r = ind.
Proof.
  intros H0 Hl. revert ind low high r Hl. induction fuel as [|fuel IH]; intros ind low high r Hl H; cbn [merge_sort] in H; [done|].
  case_decide as Hlt; [|by injection H]. cbv zeta in H. apply bind_Some in H as (i1 & H1 & H). apply bind_Some in H as (i2 & H2 & H).
  apply IH in H1 as ->; [|done]. apply IH in H2 as ->; [|done]. by eapply merge_seg_zeros.
Qed.
Lemma sort_array_zeros values ind : Forall (fun v => v = 0%Z) values -> length values = length ind -> sort_array 1 values ind = Some ind.
Proof.
  intros H0 Hl. unfold sort_array. destruct (length ind) as [|h] eqn:E; [done|].
  destruct (merge_sort_perm 1 (S (length ind)) values ind 0 h) as (r & Hr & _); [lia..|]. rewrite E in Hr. rewrite Hr. f_equal.
  eapply merge_sort_zeros; [exact H0|lia|exact Hr].
Qed.

(** * The choice at the root *)
Lemma pick_neg p idx (r : R) : Forall (fun x => 0 <= x)%R p -> (r < 0)%R -> pick real_num p idx r = None.
Proof.
  intros Hp. revert r. induction idx as [|i idx IH]; intros r Hr; [done|]. cbn [pick]. unfold rd. destruct (p !! i) as [x|] eqn:E; [|done].
  cbn [mbind option_bind]. assert (0 <= x)%R by (by eapply (proj1 (Forall_lookup _ _) Hp)). cbn. rewrite bool_decide_eq_false_2 by lra. apply IH. lra.
Qed.
Lemma pick_first p i idx (r x : R) : Forall (fun x => 0 <= x)%R p -> p !! i = Some x -> pick real_num p (i :: idx) r = if decide (x <= r)%R then Some i else None.
Proof.
  intros Hp Hx. cbn [pick]. unfold rd. rewrite Hx. cbn [mbind option_bind]. cbn. case_decide as E; case_bool_decide as E2; try lra; try done.
  apply pick_neg; [done|lra].
Qed.
Lemma truncate_small x : (0 <= x < 1)%R -> truncate x = 0%Z.
Proof.
  intros H. unfold truncate. rewrite decide_True by lra. pose proof (base_Int_part x) as [B1 B2]. assert (H1 : (-1 < Int_part x)%Z) by (apply lt_IZR; lra). assert (H2 : (Int_part x < 1)%Z) by (apply lt_IZR; lra). lia.
Qed.
Lemma mapM_int_small p : Forall (fun x => 0 <= x < 1)%R p -> mapM (n_int real_num) p = Some (replicate (length p) 0%Z).
Proof.
  induction 1 as [|x p Hx Hp IH]; [done|]. cbn [mapM]. cbn [n_int real_num]. rewrite decide_True by lra. cbn [mbind option_bind]. cbn [n_int real_num] in IH. rewrite IH.
  cbn. by rewrite truncate_small.
Qed.
(** when all the probabilities at the root are below 1, the first action is chosen or none *)
Lemma root_choice_small k w x p0 : length (w_noise w) = length (d_edges x) -> Forall (fun p => 0 <= p < 1)%R (root_probs real_num k w x) ->
  root_probs real_num k w x !! 0 = Some p0 -> root_choice real_num k w x = if decide (p0 <= w_rnd w)%R then Some 0 else None.
Proof.
  intros Hl HF H0. unfold root_choice. rewrite mapM_int_small by done. cbn [mbind option_bind].
  assert (Hlen : length (root_probs real_num k w x) = length (d_edges x)) by (unfold root_probs; rewrite zip_with_length; lia).
  rewrite sort_array_zeros; [| |rewrite replicate_length, seq_length; lia].
  2: { apply list.Forall_forall. intros z Hz. by apply elem_of_replicate in Hz as [-> _]. }
  cbn [mbind option_bind]. apply lookup_lt_Some in H0 as Hlt. rewrite <- Hlen. destruct (length (root_probs real_num k w x)) as [|n] eqn:En; [lia|].
  cbn [seq]. apply pick_first; [|done]. eapply list.Forall_impl; [exact HF|]. cbn. intros ? [? ?]. done.
Qed.
Lemma root_probs_small k w (x : node (F := R)) : (0 <= k_eps k <= 1)%R -> Forall (fun s => 0 <= s < 1)%R (w_noise w) -> Forall (fun e => 0 <= e_prior e < 1)%R (d_edges x) ->
  Forall (fun p => 0 <= p < 1)%R (root_probs real_num k w x).
Proof.
  intros He Hn Hp. unfold root_probs. cbn. revert Hp. generalize (d_edges x). induction Hn as [|s ns Hs Hn IH]; intros [|e es] Hp; cbn; try by constructor.
  apply list.Forall_cons in Hp as [Hp1 Hp2]. constructor; [|by apply IH]. split.
  - apply Rplus_le_le_0_compat; apply Rmult_le_pos; lra.
  - destruct (decide (k_eps k = 0)%R) as [E|E]; [rewrite E; lra|]. assert (s * k_eps k < 1 * k_eps k)%R by (apply Rmult_lt_compat_r; lra).
    assert ((1 - k_eps k) * e_prior e <= (1 - k_eps k) * 1)%R by (apply Rmult_le_compat_l; lra). lra.
Qed.

(** * The policy *)
Lemma for_loop_some {S} (P : nat -> S -> Prop) (body : nat -> S -> option S) cnt i0 s s' :
  P i0 s -> (forall i s s', i0 <= i < i0 + cnt -> P i s -> body i s = Some s' -> P (Datatypes.S i) s') -> for_loop cnt i0 body s = Some s' -> P (i0 + cnt) s'.
Proof.
  revert i0 s. induction cnt as [|cnt IH]; intros i0 s H0 Hs H; cbn [for_loop] in H; [injection H as <-; by rewrite Nat.add_0_r|].
  apply bind_Some in H as (s1 & H1 & H). replace (i0 + Datatypes.S cnt) with (Datatypes.S i0 + cnt) by lia. apply (IH _ s1); [|intros; eapply Hs; eauto; lia|done].
  eapply Hs; eauto. lia.
Qed.
(** the same search but for the counts *)
Definition recount (t t' : rtree) : Prop :=
  alike t t' /\ (forall i, value t' i = value t i) /\ t_qmin t' = t_qmin t /\ t_qmax t' = t_qmax t.
Lemma temper_spec A D T (t t' : rtree) root : is_tree A D t -> t_nodes t !! 0 = Some root -> temper_children T t root = Some t' ->
  recount t t' /\ (forall a c, out t 0 a = Some c -> tempered T (count t c) = Some (count t' c))
  /\ (forall i, (forall a, out t 0 a <> Some i) -> count t' i = count t i).
Proof.
  intros Tr Hr H. unfold temper_children in H.
  set (Inv := fun (i : nat) (s : rtree) => recount t s /\ (forall a c, a < i -> out t 0 a = Some c -> tempered T (count t c) = Some (count s c))
    /\ (forall j, (forall a, a < i -> out t 0 a <> Some j) -> count s j = count t j)).
  assert (HI : Inv (0 + length (d_edges root)) t').
  { refine (for_loop_some Inv _ _ _ _ _ _ _ H); clear H; unfold Inv.
  - split; [split; [apply alike_refl|done]|]. split; [intros a c Ha; lia|]. done.
  - intros i s s' Hi ((Al & Hv & Hm1 & Hm2) & Hd & Ho) Hb. apply bind_Some in Hb as (e & He & Hb). unfold rd in He.
    assert (Hout : out t 0 i = e_out e) by (unfold out; rewrite Hr; cbn; by rewrite He).
    destruct (e_out e) as [c|].
    + apply bind_Some in Hb as (y & Hy & Hb). apply bind_Some in Hb as (m & Hm & Hb). unfold rd in Hy. injection Hb as <-.
      assert (Hcl : c < length (t_nodes s)) by (by eapply lookup_lt_Some).
      assert (Hcy : count s c = d_count y) by (unfold count; by rewrite Hy).
      assert (Hct : count s c = count t c).
      { apply Ho. intros a Ha Hac. destruct (it_unique _ _ _ Tr _ _ _ _ _ Hac Hout). lia. }
      assert (Hcn : forall j, count (set_node c (with_count m y) s) j = if decide (j = c) then m else count s j) by (intros j; by rewrite count_set).
      split; [|split].
      * split; [eapply alike_trans; [exact Al|by eapply alike_set]|]. split; [|done]. intros j. rewrite <- Hv. unfold value. cbn.
        destruct (decide (j = c)) as [->|Hj]; [rewrite list_lookup_insert by done; by rewrite Hy|by rewrite list_lookup_insert_ne].
      * intros a c' Ha Hac. rewrite Hcn. case_decide as E.
        -- subst c'. by rewrite <- Hct, Hcy.
        -- apply (Hd a); [|done]. destruct (decide (a = i)) as [->|]; [congruence|lia].
      * intros j Hj. rewrite Hcn. rewrite decide_False; [|intros ->; by apply (Hj i); [lia|]]. apply Ho. intros a Ha. apply Hj. lia.
    + injection Hb as <-. split; [done|]. split.
      * intros a c Ha Hac. apply (Hd a); [|done]. destruct (decide (a = i)) as [->|]; [congruence|lia].
      * intros j Hj. apply Ho. intros a Ha. apply Hj. lia.
  }
  destruct HI as (H1 & H2 & H3). cbn in H2, H3.
    assert (Hw : forall a c, out t 0 a = Some c -> a < length (d_edges root)).
    { intros a c Ha. unfold out in Ha. rewrite Hr in Ha. cbn in Ha. apply bind_Some in Ha as (e & He & _). by eapply lookup_lt_Some. }
    split; [done|]. split; [intros a c Ha; apply (H2 a c); [by eapply Hw|done]|]. intros i Hi. apply H3. intros a _. apply Hi.
Qed.

Lemma policy_spec A D T (t t' : rtree) p : is_tree A D t -> get_mcts_probability t T = Some (t', p) ->
  recount t t' /\ (forall a c, out t 0 a = Some c -> tempered T (count t c) = Some (count t' c))
  /\ (forall i, (forall a, out t 0 a <> Some i) -> count t' i = count t i)
  /\ length p = A /\ forall a, a < A -> p !! a = Some (INR (taken t' a) / sumn A (fun b => INR (taken t' b)))%R.
Proof.
  intros Tr H. unfold get_mcts_probability in H. apply bind_Some in H as (root & Hr & H). unfold rd in Hr. apply bind_Some in H as (t1 & Ht & H).
  destruct (temper_spec A D T t t1 root Tr Hr Ht) as (Hre & Hc & Ho). apply (inj Some) in H. apply pair_equal_spec in H as [<- <-].
  split; [done|]. split; [done|]. split; [done|].
  assert (Hlen : length (d_edges root) = A) by (eapply (it_width _ _ _ Tr 0); unfold width; by rewrite Hr).
  split; [by rewrite !fmap_length|].
  assert (Hcn : forall a e, d_edges root !! a = Some e -> match d_count <$> child_of t1 e with Some c => INR c | None => 0%R end = INR (taken t1 a)).
  { intros a e He. unfold taken. assert (Hout : out t1 0 a = e_out e).
    { destruct Hre as ((_ & Hout & _) & _). rewrite Hout. unfold out. rewrite Hr. cbn. by rewrite He. }
    rewrite Hout. unfold child_of, count. destruct (e_out e) as [c|]; [|done]. cbn. by destruct (t_nodes t1 !! c). }
  assert (Hsum : forall s0, foldl (fun s c => (s + INR c)%R) s0 (omap (fun c => c) ((fun e => d_count <$> child_of t1 e) <$> d_edges root)) = (s0 + sumn A (fun b => INR (taken t1 b)))%R).
  { assert (Hg : forall (l : list edge) (f : nat -> R) s0, (forall a e, l !! a = Some e -> match d_count <$> child_of t1 e with Some c => INR c | None => 0%R end = f a) ->
      foldl (fun s c => (s + INR c)%R) s0 (omap (fun c => c) ((fun e => d_count <$> child_of t1 e) <$> l)) = (s0 + sumn (length l) f)%R).
    { clear. intros l. induction l as [|e l IH]; intros f s0 Hcn; [cbn; lra|].
      cbn [length]. rewrite sumn_S_l. rewrite <- (Hcn 0 e eq_refl). rewrite fmap_cons. cbn [omap list_omap]. specialize (IH (fun i => f (S i))).
      destruct (d_count <$> child_of t1 e) as [c|]; cbn [foldl]; rewrite IH by (intros b e' Hb; by apply Hcn); lra. }
    intros s0. rewrite <- Hlen. by apply Hg. }
  intros a Ha. destruct (lookup_lt_is_Some_2 (d_edges root) a) as [e He]; [lia|].
  rewrite !list_lookup_fmap, He. cbn [fmap option_fmap option_map]. f_equal. rewrite Hsum, Rplus_0_l. rewrite <- (Hcn a e He).
  change (option_map d_count (child_of t1 e)) with (d_count <$> child_of t1 e). destruct (d_count <$> child_of t1 e); [done|]. cbv beta iota. unfold Rdiv. by rewrite Rmult_0_l.
Qed.

Lemma tempered_ge1 T n m : (0 < T)%R -> 1 <= n -> tempered T n = Some m -> 1 <= m.
Proof.
  intros HT Hn. unfold tempered. rewrite (decide_False (P := T = 0%R)) by lra. cbv zeta. rewrite (decide_False (P := n = 0)) by lia. case_decide as E; [|done]. intros [= <-].
  assert (H1 : (1 <= Rpower (INR n) (/ T))%R).
  { rewrite <- (Rpower_O (INR n)) at 1; [|apply lt_0_INR; lia]. assert (0 < / T)%R by (by apply Rinv_0_lt_compat). destruct (decide (n = 1)) as [->|Hn1].
    - change (INR 1) with 1%R. unfold Rpower. rewrite ln_1, !Rmult_0_r. lra.
    - apply Rlt_le, Rpower_lt; [|done]. apply (lt_INR 1). lia. }
  pose proof (base_Int_part (Rpower (INR n) (/ T))) as [B1 B2].
  assert (H2 : (0 < Int_part (Rpower (INR n) (/ T)))%Z) by (apply lt_IZR; lra). lia.
Qed.
Lemma tempered_1 n : (Z.of_nat n < 2 ^ 64)%Z -> tempered 1 n = Some n.
Proof.
  intros H. unfold tempered. rewrite (decide_False (P := 1%R = 0%R)) by lra. cbv zeta. rewrite Rinv_1.
  assert (E : (if decide (n = 0) then 0%R else Rpower (INR n) 1%R) = INR n).
  { case_decide as E; [by subst|]. apply Rpower_1. apply lt_0_INR. lia. }
  rewrite E. rewrite decide_True by (rewrite INR_IZR_INZ; by apply IZR_lt). f_equal.
  rewrite INR_IZR_INZ. pose proof (base_Int_part (IZR (Z.of_nat n))) as [B1 B2].
  assert ((Int_part (IZR (Z.of_nat n)) <= Z.of_nat n)%Z) by (by apply le_IZR).
  assert ((Z.of_nat n - 1 < Int_part (IZR (Z.of_nat n)))%Z) by (apply lt_IZR; rewrite minus_IZR; lra). lia.
Qed.
Lemma tempered_shrinks T n m : (1 < T)%R -> 2 <= n -> tempered T n = Some m -> m < n.
Proof.
  intros HT Hn. unfold tempered. rewrite (decide_False (P := T = 0%R)) by lra. cbv zeta. rewrite (decide_False (P := n = 0)) by lia. case_decide as E; [|done]. intros [= <-].
  assert (H1 : (Rpower (INR n) (/ T) < INR n)%R).
  { rewrite <- (Rpower_1 (INR n)) at 2; [|apply lt_0_INR; lia]. apply Rpower_lt; [apply (lt_INR 1); lia|]. rewrite <- Rinv_1. apply Rinv_lt_contravar; lra. }
  pose proof (base_Int_part (Rpower (INR n) (/ T))) as [B1 B2]. rewrite INR_IZR_INZ in H1 at 2.
  assert (H2 : (Int_part (Rpower (INR n) (/ T)) < Z.of_nat n)%Z) by (apply lt_IZR; lra). lia.
Qed.
Lemma tempered_defined T n : (1 <= T)%R -> (Z.of_nat n < 2 ^ 64)%Z -> exists m, tempered T n = Some m.
Proof.
  intros HT Hn. unfold tempered. rewrite (decide_False (P := T = 0%R)) by lra. cbv zeta. set (x := if decide (n = 0) then 0%R else Rpower (INR n) (/ T)).
  assert (Hx : (x <= INR n)%R).
  { unfold x. case_decide as E; [subst; cbn; lra|]. rewrite <- (Rpower_1 (INR n)) at 2; [|apply lt_0_INR; lia]. destruct (decide (n = 1)) as [->|Hn1].
    - unfold Rpower. change (INR 1) with 1%R. rewrite ln_1, !Rmult_0_r. lra.
    - destruct (decide (T = 1)%R) as [->|HT1]; [rewrite Rinv_1; lra|]. apply Rlt_le, Rpower_lt; [apply (lt_INR 1); lia|]. rewrite <- Rinv_1. apply Rinv_lt_contravar; lra. }
  rewrite (decide_True (P := (x < IZR (2 ^ 64))%R)); [by eexists|]. eapply Rle_lt_trans; [exact Hx|]. rewrite INR_IZR_INZ. by apply IZR_lt.
Qed.
Lemma tempered_overflow T n : (0 < T <= / 10)%R -> 100 <= n -> tempered T n = None.
Proof.
  intros HT Hn. unfold tempered. rewrite (decide_False (P := T = 0%R)) by lra. cbv zeta. rewrite (decide_False (P := n = 0)) by lia.
  rewrite decide_False; [done|]. apply Rle_not_lt. apply Rle_trans with (100 ^ 10)%R; [cbn; lra|].
  assert (H100 : (100 <= INR n)%R) by (rewrite INR_IZR_INZ; apply IZR_le; lia).
  apply Rle_trans with (INR n ^ 10)%R; [apply pow_incr; lra|]. rewrite <- Rpower_pow by lra.
  assert (HT' : (10 <= / T)%R). { rewrite <- (Rinv_inv 10). apply Rinv_le_contravar; lra. }
  change (INR 10) with (10%R) || replace (INR 10) with 10%R by (cbn; lra). destruct (decide (10 = / T)%R) as [<-|Hne]; [lra|]. apply Rlt_le, Rpower_lt; lra.
Qed.
Lemma count_child (t : rtree) a c : out t 0 a = Some c -> count t c <= children_count t 0.
Proof.
  intros Ha. unfold children_count. assert (Hin : c ∈ outs t 0) by (apply elem_outs; by exists a). clear Ha.
  induction (outs t 0) as [|b l IH]; [by apply elem_of_nil in Hin|]. cbn. apply elem_of_cons in Hin as [->|Hin]; [lia|]. specialize (IH Hin). unfold fmap in *. lia.
Qed.

(** * Visits are defined *)
Section defined.
Context {F : Type} (O : num F).
Implicit Types t : tree (F := F).
Lemma ucb_choice_defined A D k t qhat n x : is_tree A D t -> t_nodes t !! n = Some x -> 0 < A -> exists a, ucb_choice O k t qhat x = Some a /\ a < A.
Proof.
  intros T Hn HA. assert (Hlen : length (d_edges x) = A) by (eapply (it_width _ _ _ T n); unfold width; by rewrite Hn).
  assert (Hu : forall a e b, d_edges x !! a = Some e -> exists u, ucb O k t qhat b e = Some u).
  { intros a e b He. unfold ucb. destruct (e_out e) as [c|] eqn:Ec; [|by eexists]. assert (Ho : out t n a = Some c) by (unfold out; rewrite Hn; cbn; by rewrite He).
    destruct (it_child _ _ _ T _ _ _ Ho) as (_ & d & _ & Hd). apply depth_lt in Hd. destruct (rd_Some (t_nodes t) c Hd) as (y & ->). by eexists. }
  unfold ucb_choice. destruct (d_edges x) as [|e0 es] eqn:Ee; [cbn in Hlen; lia|]. destruct (Hu 0 e0 false eq_refl) as (u & ->). cbn [mbind option_bind].
  destruct (for_loop_inv (fun i s => s.1 < A) (fun i s => e ← rd es i; u ← ucb O k t qhat true e; Some (if n_lt O s.2 u then (S i, u) else s)) (length es) 0 (0, u))
    as (s & Hs & Hlt); [done| |by rewrite Hs; exists s.1].
  intros i s Hi Hs. destruct (lookup_lt_is_Some_2 es i) as [e He]; [lia|]. unfold rd. rewrite He. cbn [mbind option_bind].
  destruct (Hu (S i) e true He) as (v & ->). cbn [mbind option_bind]. eexists. split; [done|]. destruct (n_lt O s.2 v); [|done]. cbn in *. lia.
Qed.
Lemma visit_node_defined A k fuel (w : draw) t n x q depth : is_tree A (k_depth k) t -> t_nodes t !! n = Some x -> d_depth x = depth -> 0 < A ->
  length (w_policy w) = A -> (depth = 0 -> exists a, root_choice O k w x = Some a /\ a < A) -> k_depth k < depth + fuel ->
  exists t' v, visit_node O fuel k w t n q depth = Some (t', v).
Proof.
  set (D := k_depth k). revert t n x q depth. induction fuel as [|fuel IH]; intros t n x q depth T Hn Hd HA Hpol Hroot Hf.
  { exfalso. assert (depth <= D); [|lia]. eapply (it_depth _ _ _ T n). unfold depth_of. rewrite Hn. cbn. by rewrite Hd. }
  cbn [visit_node]. unfold rd. rewrite Hn. cbn [mbind option_bind]. fold D. case_decide as HD; [by eexists _, _|]. cbv zeta.
  set (qh := n_div O _ _).
  assert (Hix : exists a, (if decide (depth = 0) then root_choice O k w x else ucb_choice O k t qh x) = Some a /\ a < A).
  { case_decide; [by apply Hroot|]. by eapply ucb_choice_defined. }
  destruct Hix as (a & -> & Ha). cbn [mbind option_bind].
  assert (Hlen : length (d_edges x) = A) by (eapply (it_width _ _ _ T n); unfold width; by rewrite Hn).
  destruct (lookup_lt_is_Some_2 (d_edges x) a) as [e He]; [lia|]. rewrite He. cbn [mbind option_bind].
  destruct (e_out e) as [c|] eqn:Eo.
  2: { unfold expand. rewrite (decide_False (P := length (w_policy w) <> length (d_edges x))) by lia. by eexists _, _. }
  assert (Hout : out t n a = Some c) by (unfold out; rewrite Hn; cbn; by rewrite He).
  destruct (it_child _ _ _ T _ _ _ Hout) as (Hlt & d & D1 & D2). unfold depth_of in D1. rewrite Hn in D1. cbn in D1. injection D1 as <-. rewrite Hd in D2.
  assert (exists y, t_nodes t !! c = Some y /\ d_depth y = S depth) as (y & Hy & Hdy).
  { unfold depth_of in D2. apply fmap_Some in D2 as (y & Hy & Ey). by exists y. }
  destruct (IH t c y qh (S depth) T Hy Hdy HA Hpol ltac:(lia) ltac:(lia)) as (t1 & vn & H1). rewrite H1. cbn [mbind option_bind].
  destruct (visit_node_post O A k _ _ _ _ _ _ _ _ _ T Hy Hdy H1) as (T1 & G1 & P & Hr & Hc & _ & _ & Hfin & _).
  case_decide as Er; [by eexists _, _|]. rewrite Hr. cbn [mbind option_bind].
  assert (Hle : forall i d, depth_of t i = Some d -> exists z, t_nodes t1 !! i = Some z).
  { intros i d0 Hi. destruct G1 as (_ & G & _). apply G in Hi. apply depth_lt in Hi. apply lookup_lt_is_Some_2 in Hi as [z Hz]. by exists z. }
  unfold back_up, rd. destruct (Hle n (d_depth x)) as (z1 & ->); [unfold depth_of; by rewrite Hn|]. destruct (Hle c (S depth)) as (z2 & ->); [done|].
  assert (HP : P <> []) by (intros ->; by rewrite Hr in Er).
  assert (Hin : forall n P i, chain t1 n P -> i ∈ P -> exists z, t_nodes t1 !! i = Some z).
  { clear -T1. intros n P. revert n. induction P as [|p P IH]; intros n i Hc Hi; [by apply elem_of_nil in Hi|]. destruct Hc as ((b & Hb) & Hc).
    apply elem_of_cons in Hi as [->|Hi]; [|by eapply IH]. destruct (it_child _ _ _ T1 _ _ _ Hb) as (_ & d & _ & Hd). apply depth_lt in Hd.
    apply lookup_lt_is_Some_2 in Hd as [z Hz]. by exists z. }
  destruct (Hin c P (final c P) Hc (final_elem c P HP)) as (z3 & ->). cbn [mbind option_bind]. by eexists _, _.
Qed.
Lemma visit_defined A k q0 (w : draw) t x a : is_tree A (k_depth k) t -> t_nodes t !! 0 = Some x -> length (w_policy w) = A -> root_choice O k w x = Some a -> a < A ->
  exists t', visit O k q0 t w = Some t'.
Proof.
  intros T Hx Hp Hc Ha. pose proof (it_root _ _ _ T) as H0. unfold depth_of in H0. rewrite Hx in H0. cbn in H0. injection H0 as Hdx.
  destruct (visit_node_defined A k (S (k_depth k)) w t 0 x q0 0 T Hx Hdx) as (t' & v & H); [lia|done|by exists a|lia|].
  exists t'. unfold visit. by rewrite H.
Qed.
Lemma visits_defined A k q0 (ws : list draw) t x : is_tree A (k_depth k) t -> balanced (k_depth k) t -> 0 < k_depth k -> t_nodes t !! 0 = Some x ->
  Forall (fun w => length (w_policy w) = A /\ exists a, root_choice O k w x = Some a /\ a < A) ws -> exists t', visits O k q0 t ws = Some t'.
Proof.
  intros T B HD Hx HF. assert (Hpri : priors t 0 = Some (e_prior <$> d_edges x)) by (unfold priors; by rewrite Hx). clear Hx.
  revert t T B Hpri. induction HF as [|w ws (Hp & a & Ha & Hlt) HF IH]; intros t T B Hpri; [by eexists|]. cbn [visits].
  unfold priors in Hpri. apply fmap_Some in Hpri as (y & Hy & Hpy).
  destruct (visit_defined A k q0 w t y a T Hy Hp) as (t1 & H1); [by rewrite (root_choice_priors O k w y x)|done|]. rewrite H1. cbn [mbind option_bind].
  destruct (visit_balanced O A k q0 w t t1 T B HD H1) as (T1 & B1 & _ & _ & G & _). apply IH; [done|done|].
  destruct G as (_ & _ & _ & _ & G). apply G. unfold priors. rewrite Hy. cbn. by rewrite Hpy.
Qed.
End defined.
