(** Proofs about histories of visits, the bounds of the values, the choice at the root and the policy. *)
From Coq Require Import Reals Lra.
From Verif Require Import RealSum Sort_Model Mcts_Model Mcts_Spec Mcts_Proofs BaseLemmas.
Open Scope nat_scope.

Section counts.
Context {F : Type} (O : num F).
Implicit Types t : tree (F := F).

Lemma elem_outs t n c : c ∈ outs t n <-> exists a, out t n a = Some c.
Proof.
  unfold outs, out. destruct (t_nodes t !! n) as [x|]; cbn; [|split; [by intros ?%elem_of_nil|by intros [? ?]]].
  rewrite elem_of_list_omap. split.
  - intros (e & He & Hc). apply elem_of_list_lookup in He as (a & Ha). exists a. by rewrite Ha.
  - intros (a & Ha). apply bind_Some in Ha as (e & He & Hc). exists e. split; [by eapply elem_of_list_lookup_2|done].
Qed.
Lemma NoDup_omap_out (l : list edge) : (forall a b (e e' : edge) (c : nat), l !! a = Some e -> l !! b = Some e' -> e_out (F := F) e = Some c -> e_out e' = Some c -> a = b) ->
  NoDup (omap e_out l).
Proof.
  induction l as [|e l IH]; intros H; [constructor|]. cbn.
  assert (IH' : NoDup (omap e_out l)). { apply IH. intros a b e1 e2 c H1 H2 H3 H4. specialize (H (S a) (S b) e1 e2 c H1 H2 H3 H4). lia. }
  destruct (e_out e) as [c|] eqn:E; [|done]. apply list.NoDup_cons. split; [|done].
  intros Hin. apply elem_of_list_omap in Hin as (e' & He' & Hc). apply elem_of_list_lookup in He' as (a & Ha).
  specialize (H 0 (S a) e e' c eq_refl Ha E Hc). lia.
Qed.
Lemma outs_NoDup A D t n : is_tree A D t -> NoDup (outs t n).
Proof.
  intros T. unfold outs. destruct (t_nodes t !! n) as [x|] eqn:E; [|constructor]. apply NoDup_omap_out.
  intros a b e e' c Ha Hb Hc Hc'.
  assert (H1 : out t n a = Some c) by (unfold out; rewrite E; cbn; by rewrite Ha).
  assert (H2 : out t n b = Some c) by (unfold out; rewrite E; cbn; by rewrite Hb). apply (it_unique _ _ _ T _ _ _ _ _ H1 H2).
Qed.
Lemma sum_filter (f : nat -> nat) (P : list nat) l :
  sum_list ((fun c => f c + if decide (c ∈ P) then 1 else 0) <$> l) = sum_list (f <$> l) + length (filter (fun c => c ∈ P) l).
Proof.
  induction l as [|c l IH]; [done|]. rewrite filter_cons, !fmap_cons. cbn [sum_list_with]. rewrite IH. unfold Datatypes.id. case_decide; cbn [length]; lia.
Qed.
Lemma filter_none {X} (Q : X -> Prop) `{forall x, Decision (Q x)} l : (forall x, x ∈ l -> ~ Q x) -> filter Q l = [].
Proof.
  induction l as [|x l IH]; [done|]. intros H'. rewrite filter_cons. rewrite decide_False by (apply H'; apply elem_of_list_here).
  apply IH. intros y Hy. apply H'. by apply elem_of_list_further.
Qed.
Lemma filter_one {X} (Q : X -> Prop) `{forall x, Decision (Q x)} l c : NoDup l -> c ∈ l -> Q c -> (forall x, x ∈ l -> Q x -> x = c) -> length (filter Q l) = 1.
Proof.
  intros Hn Hc Hq Hu. induction Hn as [|x l Hx Hn IH]; [by apply elem_of_nil in Hc|]. rewrite filter_cons.
  apply elem_of_cons in Hc as [<-|Hc].
  - rewrite decide_True by done. rewrite filter_none; [done|]. intros y Hy HQ. apply Hx. rewrite (Hu y) in Hy; [done|by apply elem_of_list_further|done].
  - rewrite decide_False.
    + apply IH; [done|]. intros y Hy. apply Hu. by apply elem_of_list_further.
    + intros HQ. apply Hx. rewrite (Hu x); [done|apply elem_of_list_here|done].
Qed.
(** the next node of the path *)
Lemma chain_next A D t n P m : is_tree A D t -> chain t n P -> m ∈ n :: P -> m <> final n P -> exists c, c ∈ P /\ exists a, out t m a = Some c.
Proof.
  intros T. revert n. induction P as [|c P IH]; intros n.
  - intros _ Hm Hf. cbn in Hf. apply elem_of_list_singleton in Hm. done.
  - intros ((a & Ha) & Hc) Hm Hf. apply elem_of_cons in Hm as [->|Hm].
    + exists c. split; [apply elem_of_list_here|by exists a].
    + rewrite final_cons in Hf. destruct (IH c Hc Hm Hf) as (c' & Hc' & Ho). exists c'. split; [by apply elem_of_list_further|done].
Qed.
(** the parent of a node of the path is on it *)
Lemma chain_prev A D t n P c m a : is_tree A D t -> chain t n P -> c ∈ P -> out t m a = Some c -> m ∈ n :: P.
Proof.
  intros T. revert n. induction P as [|p P IH]; intros n; [intros _ Hm; by apply elem_of_nil in Hm|].
  intros ((b & Hb) & Hc) Hm Hf. apply elem_of_cons in Hm as [->|Hm].
  - destruct (it_unique _ _ _ T _ _ _ _ _ Hb Hf) as [-> _]. apply elem_of_list_here.
  - apply elem_of_list_further. by apply IH.
Qed.
Lemma chain_prev_not_final A D t n P c m a : is_tree A D t -> chain t n P -> c ∈ P -> out t m a = Some c -> m <> final n P.
Proof.
  intros T Hc Hin Ho. pose proof (it_child _ _ _ T _ _ _ Ho) as (Hlt & _).
  assert (Hle : forall n P c, chain t n P -> c ∈ P -> c <= final n P).
  { clear -T. intros n P c. revert n. induction P as [|p P IH]; intros n; [intros _ Hm; by apply elem_of_nil in Hm|].
    intros (_ & Hc) Hm. rewrite final_cons. apply elem_of_cons in Hm as [->|Hm]; [|by apply IH].
    destruct P as [|q P]; [done|]. pose proof (chain_lt _ _ _ _ _ T Hc _ (final_elem p (q :: P) ltac:(done))). lia. }
  specialize (Hle _ _ _ Hc Hin). lia.
Qed.
(** two nodes of the path have no common parent, so the path meets the children of each of its nodes once *)
Lemma chain_once A D t n P c c' m a a' : is_tree A D t -> chain t n P -> c ∈ P -> c' ∈ P -> out t m a = Some c -> out t m a' = Some c' -> c = c'.
Proof.
  intros T. revert n. induction P as [|p P IH]; intros n; [intros _ Hm; by apply elem_of_nil in Hm|].
  intros ((b & Hb) & Hc) H1 H2 Ho1 Ho2.
  assert (Hx : forall c a, c ∈ P -> out t m a = Some c -> m = n -> False).
  { intros c0 a0 Hc0 Ho -> . pose proof (chain_prev _ _ _ _ _ _ _ _ T Hc Hc0 Ho) as Hin.
    apply (it_child _ _ _ T) in Hb as (Hlt & _). apply elem_of_cons in Hin as [->|Hin]; [lia|].
    pose proof (chain_lt _ _ _ _ _ T Hc _ Hin). lia. }
  apply elem_of_cons in H1 as [->|H1]; apply elem_of_cons in H2 as [->|H2]; [done|..].
  - exfalso. destruct (it_unique _ _ _ T _ _ _ _ _ Hb Ho1) as [<- _]. by eapply (Hx c').
  - exfalso. destruct (it_unique _ _ _ T _ _ _ _ _ Hb Ho2) as [<- _]. by eapply (Hx c).
  - by eapply IH.
Qed.

Lemma children_count_grows A D t t' n P i : is_tree A D t' -> grows t t' -> chain t' n P -> P <> [] ->
  (forall i, count t' i = count t i + if decide (i ∈ P) then 1 else 0) ->
  children_count t' i = sum_list (count t <$> outs t' i) + if decide (i ∈ n :: P /\ i <> final n P) then 1 else 0.
Proof.
  intros T G Hc Hp Hcnt. unfold children_count.
  replace (count t' <$> outs t' i) with ((fun c => count t c + if decide (c ∈ P) then 1 else 0) <$> outs t' i)
    by (apply list_fmap_ext; intros; by rewrite Hcnt).
  rewrite sum_filter. f_equal. case_decide as E.
  - destruct E as [E1 E2]. destruct (chain_next _ _ _ _ _ _ T Hc E1 E2) as (c & HcP & a & Ha).
    apply (filter_one _ _ c); [by eapply outs_NoDup|apply elem_outs; by exists a|done|].
    intros c' Hc' HcP'. apply elem_outs in Hc' as (a' & Ha'). by eapply chain_once.
  - rewrite filter_none; [done|]. intros c Hc1 Hc2. apply elem_outs in Hc1 as (a & Ha). apply E.
    split; [by eapply chain_prev|by eapply chain_prev_not_final].
Qed.
Lemma sum_perm (f : nat -> nat) (l1 l2 : list nat) : NoDup l1 -> NoDup l2 -> (forall x, x ∈ l1 -> x ∈ l2) -> (forall x, x ∈ l2 -> x ∈ l1 \/ f x = 0) ->
  sum_list (f <$> l1) = sum_list (f <$> l2).
Proof.
  intros H1. revert l2. induction H1 as [|x l1 Hx H1 IH]; intros l2 H2 Hs Hs'.
  - clear H2 Hs. induction l2 as [|y l2 IH]; [done|]. cbn. destruct (Hs' y) as [?%elem_of_nil|E]; [apply elem_of_list_here|done|]. rewrite E. apply IH.
    intros z Hz. apply Hs'. by apply elem_of_list_further.
  - pose proof (Hs x (elem_of_list_here x l1)) as Hin. apply elem_of_list_split in Hin as (la & lb & ->).
    assert (P : la ++ x :: lb ≡ₚ x :: la ++ lb) by (symmetry; apply Permutation_middle).
    rewrite P in H2. apply list.NoDup_cons in H2 as [Hn H2].
    assert (E : sum_list (f <$> la ++ x :: lb) = f x + sum_list (f <$> la ++ lb)).
    { clear. induction la as [|a la IH]; [done|]. cbn in *. unfold fmap in *. lia. }
    rewrite E. cbn. f_equal. apply IH; [done|..].
    + intros y Hy. assert (Hyx : y <> x) by (intros ->; done). specialize (Hs y (elem_of_list_further _ _ _ Hy)). rewrite P in Hs.
      apply elem_of_cons in Hs as [?|?]; done.
    + intros y Hy. destruct (Hs' y) as [Hy'|?]; [rewrite P; by apply elem_of_list_further| |by right].
      apply elem_of_cons in Hy' as [->|?]; [done|by left].
Qed.
Lemma old_children A D t t' i : is_tree A D t -> is_tree A D t' -> grows t t' -> sum_list (count t <$> outs t' i) = children_count t i.
Proof.
  intros T T' (G1 & G2 & G3 & G4 & _). unfold children_count. symmetry. apply sum_perm; [by eapply outs_NoDup|by eapply outs_NoDup|..].
  - intros c Hc. apply elem_outs in Hc as (a & Ha). apply elem_outs. exists a. by apply G3.
  - intros c Hc. apply elem_outs in Hc as (a & Ha). destruct (decide (c < length (t_nodes t))).
    + left. apply elem_outs. exists a. by apply G4.
    + right. apply count_ge. lia.
Qed.

Lemma visit_balanced A k q0 (w : draw) t t' : is_tree A (k_depth k) t -> balanced (k_depth k) t -> 0 < k_depth k -> visit O k q0 t w = Some t' ->
  is_tree A (k_depth k) t' /\ balanced (k_depth k) t' /\ count t' 0 = count t 0 /\ children_count t' 0 = S (children_count t 0)
  /\ grows t t' /\ length (t_nodes t') <= S (length (t_nodes t))
  /\ exists r, t_returned t' = Some r /\ forall i, i <> 0 -> (below t' i r -> count t' i = S (count t i)) /\ (~ below t' i r -> count t' i = count t i).
Proof.
  intros T B HD H. unfold visit in H. apply fmap_Some in H as ([t1 v] & H & ->). cbn [fst].
  pose proof (it_root _ _ _ T) as H0. unfold depth_of in H0. apply fmap_Some in H0 as (x & Hx & Hdx). symmetry in Hdx.
  destruct (visit_node_post O A k _ _ _ _ _ _ _ _ _ T Hx Hdx H) as (T' & G & P & Hr & Hc & Hp & Hcnt & Hfin & Hl & Hl').
  assert (Hpn : P <> []) by (intros E; apply Hp in E; lia). clear Hp.
  assert (HcP : counted 0 P = P) by (by destruct P). rewrite HcP in Hcnt. clear HcP.
  assert (H0P : 0 ∉ P). { intros Hin. pose proof (chain_lt _ _ _ _ _ T' Hc _ Hin). lia. }
  assert (Hf : final 0 P ∈ P) by (by apply final_elem).
  assert (Hkid := fun i => children_count_grows A _ t t1 0 P i T' G Hc Hpn Hcnt).
  assert (Hkid' : forall i, children_count t1 i = children_count t i + if decide (i ∈ 0 :: P /\ i <> final 0 P) then 1 else 0).
  { intros i. rewrite Hkid. f_equal. by eapply old_children. }
  split; [done|]. split; [|split; [|split; [|split; [done|split; [done|]]]]].
  - intros n d Hn Hd. rewrite Hcnt. destruct (decide (n ∈ P)) as [HnP|HnP].
    + split; [lia|]. intros Hlt. rewrite Hkid'. destruct (decide (n = final 0 P)) as [->|Hnf].
      * destruct Hfin as [E|[E1 E2]].
        { destruct G as (_ & G & _). apply G in E. rewrite E in Hd. injection Hd as <-. lia. }
        rewrite decide_False by tauto. rewrite Nat.add_0_r. rewrite E1 at 1. rewrite count_ge by done.
        assert (Hk0 : children_count t1 (final 0 P) = 0) by (unfold children_count; by rewrite E2). rewrite Hkid' in Hk0. lia.
      * rewrite decide_True by (split; [by apply elem_of_list_further|done]).
        destruct (decide (n < length (t_nodes t))) as [Hnl|Hnl].
        { destruct (depth_is_Some _ _ Hnl) as (d' & Hd'). pose proof Hd' as Hd2. destruct G as (_ & G & _). apply G in Hd2. rewrite Hd in Hd2. injection Hd2 as <-.
          destruct (B n d Hn Hd') as [_ Hb]. specialize (Hb Hlt). lia. }
        exfalso. apply depth_lt in Hd. assert (Hll : length (t_nodes t1) = S (length (t_nodes t))) by lia. specialize (Hl' Hll). lia.
    + rewrite Hkid'. rewrite Nat.add_0_r. rewrite decide_False by (intros [[?|?]%elem_of_cons _]; [lia|done]). rewrite Nat.add_0_r.
      assert (Hnl : n < length (t_nodes t)).
      { apply depth_lt in Hd. destruct (decide (n < length (t_nodes t))) as [|Hnl]; [done|]. exfalso.
        assert (Hll : length (t_nodes t1) = S (length (t_nodes t))) by lia. specialize (Hl' Hll). apply HnP. replace n with (final 0 P) by lia. done. }
      destruct (depth_is_Some _ _ Hnl) as (d' & Hd'). pose proof Hd' as Hd2. destruct G as (_ & G & _). apply G in Hd2. rewrite Hd in Hd2. injection Hd2 as <-.
      by apply (B n d Hn).
  - rewrite Hcnt. rewrite decide_False by done. lia.
  - rewrite Hkid'. rewrite decide_True; [lia|]. split; [apply elem_of_list_here|]. intros E. apply H0P. by rewrite E.
  - exists (final 0 P). split; [done|]. intros i Hi. rewrite Hcnt.
    assert (Hb1 : forall n P i, chain t1 n P -> i ∈ n :: P -> below t1 i (final n P)).
    { clear. intros n P i. revert n i. induction P as [|p P IH]; intros n i.
      - intros _ Hi. apply elem_of_list_singleton in Hi as ->. apply rtc_refl.
      - intros ((a & Ha) & Hc) Hi. rewrite final_cons. apply elem_of_cons in Hi as [->|Hi]; [|by apply IH].
        eapply rtc_l; [by exists a|]. apply IH; [done|apply elem_of_list_here]. }
    assert (Hb2 : below t1 i (final 0 P) -> i ∈ 0 :: P).
    { clear -T' Hc Hf. intros Hb.
      assert (Hgen : forall z, below t1 i z -> z ∈ 0 :: P -> i ∈ 0 :: P).
      { clear Hb. intros z Hbz. induction Hbz as [z|y y' z (a & Ha) Hyz IH]; [done|]. intros Hz. specialize (IH Hz).
        apply elem_of_cons in IH as [->|IH]; [exfalso; apply (it_child _ _ _ T') in Ha; lia|]. by eapply chain_prev. }
      apply (Hgen (final 0 P)); [done|by apply elem_of_list_further]. }
    split; intros Hb.
    + apply Hb2 in Hb. apply elem_of_cons in Hb as [?|?]; [done|]. rewrite decide_True by done. lia.
    + rewrite decide_False; [lia|]. intros Hin. apply Hb. apply Hb1; [done|by apply elem_of_list_further].
Qed.

Lemma init_tree A D (policy : list F) : length policy = A -> is_tree A D (init_mcts O policy) /\ balanced D (init_mcts O policy)
  /\ count (init_mcts O policy) 0 = 0 /\ children_count (init_mcts O policy) 0 = 0.
Proof.
  intros HA.
  assert (Hout : forall n a, out (init_mcts O policy) n a = None).
  { intros n a. unfold out, init_mcts. cbn. destruct n; [|done]. cbn. unfold fresh_edges. rewrite list_lookup_fmap. by destruct (policy !! a). }
  split; [split|split; [|split]].
  - done.
  - intros n w. unfold width. destruct n; [|done]. cbn. unfold fresh_edges. rewrite fmap_length. by intros [= <-].
  - intros n d. unfold depth_of. destruct n; [|done]. cbn. intros [= <-]. lia.
  - intros n a c. by rewrite Hout.
  - cbn. lia.
  - intros n a n' a' c. by rewrite Hout.
  - cbn. lia.
  - intros n d Hn. unfold depth_of. destruct n; [lia|done].
  - done.
  - unfold children_count, outs. cbn. by rewrite omap_fresh.
Qed.
Lemma visits_balanced A k q0 (ws : list draw) t t' : is_tree A (k_depth k) t -> balanced (k_depth k) t -> 0 < k_depth k -> visits O k q0 t ws = Some t' ->
  is_tree A (k_depth k) t' /\ balanced (k_depth k) t' /\ count t' 0 = count t 0 /\ children_count t' 0 = length ws + children_count t 0 /\ grows t t'
  /\ length (t_nodes t') <= length ws + length (t_nodes t).
Proof.
  intros T B HD. revert t T B. induction ws as [|w ws IH]; intros t T B H; cbn [visits] in H.
  - injection H as <-. split; [done|]. split; [done|]. split; [done|]. split; [done|]. split; [apply grows_alike, alike_refl|cbn; lia].
  - apply bind_Some in H as (t1 & H1 & H). destruct (visit_balanced A k q0 w t t1 T B HD H1) as (T1 & B1 & C1 & K1 & G1 & L1 & _).
    destruct (IH t1 T1 B1 H) as (T2 & B2 & C2 & K2 & G2 & L2). split; [done|]. split; [done|]. split; [lia|]. split; [cbn; lia|].
    split; [by eapply grows_trans|cbn; lia].
Qed.
End counts.
