From Verif Require Import BaseLemmas OrderLemmas Sort_Spec Sort_Model Sort_Proofs Heap_Model Heap_Spec.
Open Scope nat_scope.

Lemma c_parent_spec i : 0 < i -> c_parent i = (i - 1) / 2.
Proof.
  intros Hi. unfold c_parent. destruct (Nat.odd i) eqn:E; [done|].
  assert (Nat.even i = true) as He by (rewrite <- Nat.negb_odd, E; done).
  apply Nat.even_spec in He. destruct He as [m ->].
  replace (2 * m - 2) with ((m - 1) * 2) by lia. rewrite Nat.div_mul by lia.
  replace (2 * m - 1) with (1 + (m - 1) * 2) by lia. rewrite Nat.div_add by lia. done.
Qed.

Definition par (k : nat) := (k - 1) / 2.
Lemma par_lt k : 0 < k -> par k < k.
Proof. intros. unfold par. pose proof (Nat.div_le_upper_bound (k - 1) 2 (k - 1)). lia. Qed.
Lemma par_child k i : 0 < k -> par k = i -> k = 2 * i + 1 \/ k = 2 * i + 2.
Proof. unfold par. intros. pose proof (Nat.div_mod (k - 1) 2). pose proof (Nat.mod_upper_bound (k - 1) 2). lia. Qed.
Lemma par_l i : par (2 * i + 1) = i.
Proof. unfold par. replace (2 * i + 1 - 1) with (i * 2) by lia. by apply Nat.div_mul. Qed.
Lemma par_r i : par (2 * i + 2) = i.
Proof. unfold par. replace (2 * i + 2 - 1) with (1 + i * 2) by lia. by rewrite Nat.div_add. Qed.

Section heap.
  Context {V : Type} (ltb : V -> V -> bool) (Hs : strict_weak_order ltb) (values : list V).
  Local Notation "x ≤v y" := (leP ltb x y) (at level 70).
  Local Notation val := (value_at values).
  Local Notation tabs := (inverse_tables values).

  Lemma tabs_val ind rev n k : tabs ind rev n -> k < n -> exists v, val ind k = Some v.
  Proof.
    intros HT Hk. destruct (HT k Hk) as (a & Ha & _ & Hl). unfold value_at. rewrite Ha. cbn.
    destruct (lookup_lt_is_Some_2 values a Hl) as [v Hv]. eauto.
  Qed.
  Lemma tabs_inj ind rev n k k' a : tabs ind rev n -> k < n -> k' < n -> ind !! k = Some a -> ind !! k' = Some a -> k = k'.
  Proof.
    intros HT Hk Hk' H H'. destruct (HT k Hk) as (b & Hb & Hr & _), (HT k' Hk') as (b' & Hb' & Hr' & _).
    congruence.
  Qed.
  Lemma tabs_mono ind rev n m : m <= n -> tabs ind rev n -> tabs ind rev m.
  Proof. intros Hm HT k Hk. apply HT. lia. Qed.

  (** A reordering of the first n heap positions that keeps the tables inverse and does not
      touch the reverse entry of slots that are not among them. *)
  Definition reord (n : nat) (ind rev ind' rev' : list nat) : Prop :=
    seg_perm 0 (n - 1) ind ind' /\ length rev' = length rev /\ tabs ind' rev' n /\
    forall a, (forall k, k < n -> ind !! k <> Some a) -> rev' !! a = rev !! a.

  Lemma reord_refl n ind rev : tabs ind rev n -> reord n ind rev ind rev.
  Proof. intros. split_and!; [apply seg_perm_refl|done|done|done]. Qed.

  Lemma reord_trans n i1 r1 i2 r2 i3 r3 : 0 < n -> reord n i1 r1 i2 r2 -> reord n i2 r2 i3 r3 -> reord n i1 r1 i3 r3.
  Proof.
    intros Hn (S1 & L1 & T1 & O1) (S2 & L2 & T2 & O2). split_and!.
    - by eapply seg_perm_trans.
    - lia.
    - done.
    - intros a Ha. rewrite O2, O1; [done|done|].
      intros k Hk Hka. destruct (seg_perm_inside _ _ _ _ S1 k a) as (k' & Hk' & E'); [lia|done|].
      apply (Ha k'); [lia|done].
  Qed.

  Lemma swap_entries_ok n ind rev i l : tabs ind rev n -> i < n -> l < n -> i <> l ->
    exists x y rev', ind !! i = Some x /\ ind !! l = Some y /\
      swap_entries ind rev i l = Some (<[l := x]> (<[i := y]> ind), rev') /\
      reord n ind rev (<[l := x]> (<[i := y]> ind)) rev'.
  Proof.
    intros HT Hi Hl Hne.
    destruct (HT i Hi) as (x & Hx & Hrx & Hlx), (HT l Hl) as (y & Hy & Hry & Hly).
    assert (Hli : i < length ind) by by eapply lookup_lt_Some.
    assert (Hll : l < length ind) by by eapply lookup_lt_Some.
    assert (Hxy : x <> y). { intros ->. apply Hne. by eapply tabs_inj. }
    assert (Hxr : x < length rev) by by eapply lookup_lt_Some.
    assert (Hyr : y < length rev) by by eapply lookup_lt_Some.
    exists x, y, (<[x := l]> (<[y := i]> rev)). split; [done|]. split; [done|]. split.
    - unfold swap_entries, rd. rewrite Hx, Hy. cbn [mbind option_bind].
      rewrite wr_Some by done. cbn [mbind option_bind].
      rewrite list_lookup_insert_ne by done. rewrite Hy. cbn [mbind option_bind].
      rewrite (wr_Some rev) by done. cbn [mbind option_bind].
      rewrite (wr_Some (<[y:=i]> rev)) by (rewrite insert_length; done). cbn [mbind option_bind].
      rewrite wr_Some by (rewrite insert_length; done). done.
    - split_and!.
      + apply seg_perm_swap; [lia|lia|done|done].
      + by rewrite !insert_length.
      + intros k Hk. destruct (decide (k = l)) as [->|Hkl].
        * exists x. rewrite list_lookup_insert by (rewrite insert_length; done).
          rewrite list_lookup_insert by (rewrite insert_length; done). done.
        * rewrite list_lookup_insert_ne by done. destruct (decide (k = i)) as [->|Hki].
          -- exists y. rewrite list_lookup_insert by done. rewrite list_lookup_insert_ne by done.
             rewrite list_lookup_insert by done. done.
          -- destruct (HT k Hk) as (a & Ha & Hra & Hla). exists a.
             rewrite list_lookup_insert_ne by done. split; [done|]. split; [|done].
             rewrite !list_lookup_insert_ne; [done| |].
             ++ intros ->. apply Hkl. by eapply tabs_inj.
             ++ intros ->. apply Hki. by eapply tabs_inj.
      + intros a Ha. rewrite !list_lookup_insert_ne; [done| |].
        * intros ->. by apply (Ha l).
        * intros ->. by apply (Ha i).
  Qed.

  Lemma val_swap' ind i l x y k : ind !! i = Some x -> ind !! l = Some y ->
    val (<[l := x]> (<[i := y]> ind)) k = if decide (k = l) then val ind i else if decide (k = i) then val ind l else val ind k.
  Proof. apply (val_swap values). Qed.

  (** The value at position k, as a partial order statement that is easy to combine. *)
  Definition vle (ind : list nat) (k p : nat) : Prop :=
    forall vk vp, val ind k = Some vk -> val ind p = Some vp -> vk ≤v vp.

  Lemma vle_trans ind a b c v : val ind b = Some v -> vle ind a b -> vle ind b c -> vle ind a c.
  Proof. intros Hv H1 H2 va vc Ha Hc. eapply leP_trans; [done|by apply H1|by apply H2]. Qed.
  Lemma vle_refl ind a : vle ind a a.
  Proof. intros u v H1 H2. rewrite H1 in H2. simplify_eq. by apply leP_refl. Qed.

  Definition heap (ind : list nat) (n : nat) : Prop := forall k, 0 < k < n -> vle ind k (par k).
  Lemma heap_spec ind n : heap ind n <-> is_max_heap ltb values ind n.
  Proof. unfold heap, is_max_heap, vle. split; intros H; intros; eapply H; eauto. Qed.

  (** almost a heap: the edge above i may be broken *)
  Definition heap_up (ind : list nat) (n i : nat) : Prop :=
    (forall k, 0 < k < n -> k <> i -> vle ind k (par k)) /\
    (forall k, 0 < k < n -> par k = i -> 0 < i -> vle ind k (par i)).
  (** almost a heap: the edges below i may be broken *)
  Definition heap_down (ind : list nat) (n i : nat) : Prop :=
    (forall k, 0 < k < n -> par k <> i -> vle ind k (par k)) /\
    (forall k, 0 < k < n -> par k = i -> 0 < i -> vle ind k (par i)).

  Lemma vle_swap ind i l x y a b : ind !! i = Some x -> ind !! l = Some y ->
    let s k := if decide (k = l) then i else if decide (k = i) then l else k in
    vle ind (s a) (s b) -> vle (<[l := x]> (<[i := y]> ind)) a b.
  Proof.
    intros Hx Hy s H va vb Ha Hb. rewrite (val_swap' ind i l x y) in Ha, Hb by done.
    unfold s in H. apply H.
    - destruct (decide (a = l)); [done|]. destruct (decide (a = i)); done.
    - destruct (decide (b = l)); [done|]. destruct (decide (b = i)); done.
  Qed.

  Lemma up_step n ind i x y : 0 < i < n -> (forall k, k < n -> exists v, val ind k = Some v) ->
    ind !! i = Some x -> ind !! par i = Some y -> heap_up ind n i -> vle ind (par i) i ->
    heap_up (<[par i := x]> (<[i := y]> ind)) n (par i).
  Proof.
    intros Hi Hval Hx Hy [H1 H2] Hle. pose proof (par_lt i) as Hp. set (p := par i) in *.
    destruct (Hval p) as [vp Hvp]; [lia|]. destruct (Hval i) as [vi Hvi]; [lia|].
    split.
    - intros k Hk Hkp. eapply (vle_swap ind i p x y); [done..|]. cbn zeta.
      rewrite (decide_False (P := k = p)) by done.
      destruct (decide (k = i)) as [->|Hki].
      + fold p. rewrite (decide_True (P := p = p)) by done. done.
      + destruct (decide (par k = p)) as [Ep|Ep].
        * eapply (vle_trans ind k p i); [done| |done]. rewrite <- Ep. apply H1; [lia|done].
        * destruct (decide (par k = i)) as [Ei|Ei].
          -- apply (H2 k); [lia|done|lia].
          -- apply H1; [lia|done].
    - intros k Hk Hkp Hp0. pose proof (par_lt p) as Hpp. eapply (vle_swap ind i p x y); [done..|]. cbn zeta.
      pose proof (par_lt k) as Hkk.
      rewrite (decide_False (P := k = p)) by lia.
      rewrite (decide_False (P := par p = p)) by lia.
      rewrite (decide_False (P := par p = i)) by lia.
      assert (Hpv : vle ind p (par p)) by (apply H1; lia).
      destruct (decide (k = i)) as [->|Hki]; [done|].
      eapply (vle_trans ind k p (par p)); [done| |done]. rewrite <- Hkp. apply H1; [lia|done].
  Qed.

  Lemma heapify_up_ok n : forall fuel ind rev i,
    tabs ind rev n -> i < n -> i < fuel -> heap_up ind n i ->
    exists ind' rev', max_heapify_up ltb values fuel ind rev i = Some (ind', rev') /\
      reord n ind rev ind' rev' /\ heap ind' n /\
      ((forall k, k < n -> vle ind k i) -> ind' !! 0 = ind !! i).
  Proof.
    induction fuel as [|fuel IH]; intros ind rev i HT Hi Hf HU; [lia|]. cbn [max_heapify_up].
    destruct (decide (i = 0)) as [->|Hi0].
    - exists ind, rev. split; [done|]. split; [by apply reord_refl|]. split; [|done].
      intros k Hk. apply HU; lia.
    - rewrite c_parent_spec by lia. fold (par i). pose proof (par_lt i) as Hp.
      destruct (tabs_val ind rev n (par i) HT) as [vp Hvp]; [lia|].
      destruct (tabs_val ind rev n i HT) as [vi Hvi]; [lia|].
      unfold prio, rd. unfold value_at in Hvp, Hvi. rewrite Hvp. cbn [mbind option_bind]. rewrite Hvi.
      cbn [mbind option_bind]. destruct (ltb vi vp) eqn:E.
      + exists ind, rev. split; [done|]. split; [by apply reord_refl|]. split.
        * intros k Hk. destruct (decide (k = i)) as [->|]; [|by apply HU].
          intros u v Hu Hv. unfold value_at in Hu, Hv. rewrite Hvi in Hu. rewrite Hvp in Hv. simplify_eq.
          by apply ltb_leP.
        * intros Hmax. exfalso. specialize (Hmax (par i) ltac:(lia) vp vi Hvp Hvi). unfold leP in Hmax. congruence.
      + destruct (swap_entries_ok n ind rev i (par i)) as (x & y & rev' & Hx & Hy & Es & Hre); [done|lia|lia|lia|].
        rewrite Es. cbn [mbind option_bind fst snd].
        assert (Hle : vle ind (par i) i).
        { intros u v Hu Hv. unfold value_at in Hu, Hv. rewrite Hvp in Hu. rewrite Hvi in Hv. simplify_eq. exact E. }
        destruct (IH (<[par i := x]> (<[i := y]> ind)) rev' (par i)) as (ind' & rev'' & E2 & Hre2 & Hh & Hroot).
        * apply Hre.
        * lia.
        * lia.
        * apply up_step; try done; [lia|]. intros k Hk. by eapply tabs_val.
        * exists ind', rev''. split; [done|]. split; [eapply reord_trans; [lia|done|done]|]. split; [done|].
          intros Hmax. rewrite Hroot.
          -- rewrite list_lookup_insert; [done|]. rewrite insert_length. by eapply lookup_lt_Some.
          -- intros k Hk. eapply (vle_swap ind i (par i) x y); [done..|]. cbn zeta.
             rewrite (decide_True (P := par i = par i)) by done.
             destruct (decide (k = par i)); [apply vle_refl|].
             destruct (decide (k = i)); apply Hmax; lia.
  Qed.

  Lemma pick_larger_ok n ind rev c l : tabs ind rev n -> l < n ->
    exists r, pick_larger ltb values ind n c l = Some r /\ (r = l \/ (r = c /\ c < n)) /\
      vle ind l r /\ (c < n -> vle ind c r).
  Proof.
    intros HT Hl. unfold pick_larger. case_decide as Hc.
    - destruct (tabs_val ind rev n c HT Hc) as [vc Hvc].
      destruct (tabs_val ind rev n l HT Hl) as [vl Hvl].
      unfold prio, rd. pose proof Hvc as Hvc'. pose proof Hvl as Hvl'.
      unfold value_at in Hvc', Hvl'. rewrite Hvc'. cbn [mbind option_bind]. rewrite Hvl'. cbn [mbind option_bind].
      destruct (ltb vc vl) eqn:E.
      + exists l. split; [done|]. split; [by left|]. split; [apply vle_refl|].
        intros _ u v Hu Hv. rewrite Hvc in Hu. rewrite Hvl in Hv. simplify_eq. by apply ltb_leP.
      + exists c. split; [done|]. split; [by right|]. split; [|intros _; apply vle_refl].
        intros u v Hu Hv. rewrite Hvl in Hu. rewrite Hvc in Hv. simplify_eq. exact E.
    - exists l. split; [done|]. split; [by left|]. split; [apply vle_refl|]. lia.
  Qed.

  Lemma down_step n ind i l x y : i < l -> l < n -> par l = i -> (forall k, k < n -> exists v, val ind k = Some v) ->
    ind !! i = Some x -> ind !! l = Some y -> heap_down ind n i ->
    vle ind i l -> (forall k, 0 < k < n -> par k = i -> vle ind k l) ->
    heap_down (<[l := x]> (<[i := y]> ind)) n l.
  Proof.
    intros Hil Hln Hpl Hval Hx Hy [H1 H2] Hle Hch.
    destruct (Hval i) as [vi Hvi]; [lia|]. destruct (Hval l) as [vl Hvl]; [lia|].
    split.
    - intros k Hk Hkp. eapply (vle_swap ind i l x y); [done..|]. cbn zeta.
      rewrite (decide_False (P := par k = l)) by done.
      destruct (decide (k = l)) as [->|Hkl].
      + rewrite Hpl. rewrite decide_True by done. done.
      + destruct (decide (k = i)) as [->|Hki].
        * pose proof (par_lt i). rewrite decide_False by lia. apply H2; [lia|done|lia].
        * destruct (decide (par k = i)) as [Ei|Ei].
          -- apply Hch; [lia|done].
          -- apply H1; [lia|done].
    - intros k Hk Hkp Hl0. eapply (vle_swap ind i l x y); [done..|]. cbn zeta.
      pose proof (par_lt k) as Hkk. rewrite (decide_False (P := k = l)) by lia.
      rewrite (decide_False (P := k = i)) by lia. rewrite Hpl.
      rewrite (decide_False (P := i = l)) by lia. rewrite decide_True by done.
      rewrite <- Hkp. apply H1; [lia|]. lia.
  Qed.

  Lemma heapify_ok n : forall fuel ind rev i,
    tabs ind rev n -> i < n -> n - i <= fuel -> heap_down ind n i ->
    exists ind' rev', max_heapify ltb values fuel ind rev n i = Some (ind', rev') /\
      reord n ind rev ind' rev' /\ heap ind' n.
  Proof.
    induction fuel as [|fuel IH]; intros ind rev i HT Hi Hf HD; [lia|]. cbn [max_heapify].
    destruct (pick_larger_ok n ind rev (2 * i + 1) i HT Hi) as (l1 & E1 & Hl1 & Hi1 & Hc1).
    rewrite E1. cbn [mbind option_bind].
    assert (Hl1n : l1 < n) by lia.
    destruct (pick_larger_ok n ind rev (2 * i + 2) l1 HT Hl1n) as (l & E2 & Hl & Hi2 & Hc2).
    rewrite E2. cbn [mbind option_bind].
    assert (Hln : l < n) by lia.
    destruct (tabs_val ind rev n l1 HT Hl1n) as [vl1 Hvl1].
    assert (Hil : vle ind i l) by (eapply vle_trans; done).
    assert (Hch : forall k, 0 < k < n -> par k = i -> vle ind k l).
    { intros k Hk Hp. destruct (par_child k i) as [->| ->]; [lia|done| |].
      - eapply vle_trans; [exact Hvl1|apply Hc1; lia|done].
      - apply Hc2. lia. }
    case_decide as Hc.
    - subst l. exists ind, rev. split; [done|]. split; [by apply reord_refl|].
      intros k Hk. destruct (decide (par k = i)) as [Ep|Ep]; [|by apply HD]. rewrite Ep. by apply Hch.
    - assert (Hpl : par l = i).
      { destruct Hl as [->|[-> ?]]; [destruct Hl1 as [?|[-> ?]]; [done|apply par_l]|apply par_r]. }
      assert (Hlt : i < l). { destruct Hl as [->|[-> ?]]; [destruct Hl1 as [?|[-> ?]]; lia|lia]. }
      destruct (swap_entries_ok n ind rev i l) as (x & y & rev' & Hx & Hy & Es & Hre); [done..|].
      rewrite Es. cbn [mbind option_bind fst snd].
      destruct (IH (<[l := x]> (<[i := y]> ind)) rev' l) as (ind' & rev'' & E3 & Hre2 & Hh).
      + apply Hre.
      + done.
      + lia.
      + apply down_step; try done. intros k Hk. by eapply tabs_val.
      + exists ind', rev''. split; [done|]. split; [eapply reord_trans; [lia|done|done]|]. done.
  Qed.

  (** The swap at the start of remove_ith (also correct when i = n-1). *)
  Lemma remove_swap_tabs n ind rev i x y : tabs ind rev n -> i < n -> ind !! i = Some x -> ind !! (n - 1) = Some y ->
    tabs (<[n - 1 := x]> (<[i := y]> ind)) (<[y := i]> (<[x := n - 1]> rev)) n /\
    seg_perm 0 (n - 1) ind (<[n - 1 := x]> (<[i := y]> ind)) /\
    (forall a, (forall k, k < n -> ind !! k <> Some a) -> (<[y := i]> (<[x := n - 1]> rev)) !! a = rev !! a).
  Proof.
    intros HT Hi Hx Hy.
    assert (i < length ind) by by eapply lookup_lt_Some.
    assert (n - 1 < length ind) by by eapply lookup_lt_Some.
    destruct (HT i Hi) as (x' & Hx' & Hrx & Hlx). rewrite Hx in Hx'. simplify_eq.
    destruct (HT (n - 1)) as (y' & Hy' & Hry & Hly); [lia|]. rewrite Hy in Hy'. simplify_eq.
    assert (x' < length rev) by by eapply lookup_lt_Some.
    assert (y' < length rev) by by eapply lookup_lt_Some.
    split; [|split].
    - intros k Hk. destruct (decide (k = n - 1)) as [->|Hkl].
      + exists x'. rewrite list_lookup_insert by (rewrite insert_length; done). split; [done|]. split; [|done].
        destruct (decide (y' = x')) as [->|].
        * rewrite list_lookup_insert by (rewrite insert_length; done). f_equal. congruence.
        * rewrite list_lookup_insert_ne by done. by rewrite list_lookup_insert.
      + rewrite list_lookup_insert_ne by done. destruct (decide (k = i)) as [->|Hki].
        * exists y'. rewrite list_lookup_insert by done. rewrite list_lookup_insert by (rewrite insert_length; done). done.
        * destruct (HT k Hk) as (a & Ha & Hra & Hla). exists a. rewrite list_lookup_insert_ne by done.
          split; [done|]. split; [|done]. rewrite !list_lookup_insert_ne; [done| |].
          -- intros ->. apply Hki. by eapply (tabs_inj ind rev n).
          -- intros ->. apply Hkl. eapply (tabs_inj ind rev n); [done|done|lia|done|done].
    - apply seg_perm_swap; [lia|lia|done|done].
    - intros a Ha. rewrite !list_lookup_insert_ne; [done| |].
      + intros ->. by apply (Ha i).
      + intros ->. apply (Ha (n - 1)); [lia|done].
  Qed.

  Lemma reord_smaller n ind rev ind' rev' x :
    1 < n -> tabs ind rev n -> ind !! (n - 1) = Some x -> reord (n - 1) ind rev ind' rev' ->
    reord n ind rev ind' rev' /\ ind' !! (n - 1) = Some x.
  Proof.
    intros Hn HT Hx (S1 & L1 & T1 & O1).
    assert (Hx' : ind' !! (n - 1) = Some x).
    { rewrite (seg_perm_outside 0 (n - 1 - 1) ind ind') by (done || lia). done. }
    split; [|done].
    destruct (HT (n - 1)) as (x' & Hx2 & Hrx & Hlx); [lia|]. rewrite Hx in Hx2. simplify_eq.
    split_and!.
    - eapply seg_perm_mono; [| |done]; lia.
    - done.
    - intros k Hk. destruct (decide (k < n - 1)); [by apply T1|]. assert (k = n - 1) by lia. subst k.
      exists x'. split; [done|]. split; [|done]. rewrite O1; [done|].
      intros k Hk' Hkx. assert (k = n - 1) by (eapply (tabs_inj ind rev n); [done|lia|lia|done|done]). lia.
    - intros a Ha. apply O1. intros k Hk'. apply Ha. lia.
  Qed.

  Lemma remove_ith_ok n ind rev i : tabs ind rev n -> i < n -> heap ind n ->
    exists ind' rev', remove_ith ltb values ind rev n i = Some (ind', rev') /\
      reord n ind rev ind' rev' /\ heap ind' (n - 1) /\ ind' !! (n - 1) = ind !! i.
  Proof.
    intros HT Hi HH. unfold remove_ith. rewrite decide_False by lia.
    destruct (HT i Hi) as (x & Hx & Hrx & Hlx).
    destruct (HT (n - 1)) as (y & Hy & Hry & Hly); [lia|].
    destruct (tabs_val ind rev n i HT Hi) as [v1 Hv1].
    destruct (tabs_val ind rev n (n - 1) HT) as [v2 Hv2]; [lia|].
    pose proof Hv1 as Hv1'. pose proof Hv2 as Hv2'. unfold value_at in Hv1', Hv2'.
    unfold prio, rd. rewrite Hv1'. cbn [mbind option_bind]. rewrite Hv2'. cbn [mbind option_bind].
    rewrite Hx, Hy. cbn [mbind option_bind].
    assert (i < length ind) by by eapply lookup_lt_Some.
    assert (n - 1 < length ind) by by eapply lookup_lt_Some.
    assert (x < length rev) by by eapply lookup_lt_Some.
    assert (y < length rev) by by eapply lookup_lt_Some.
    rewrite (wr_Some rev) by done. cbn [mbind option_bind].
    rewrite (wr_Some (<[x:=n-1]> rev)) by (rewrite insert_length; done). cbn [mbind option_bind].
    rewrite (wr_Some ind) by done. cbn [mbind option_bind].
    rewrite wr_Some by (rewrite insert_length; done). cbn [mbind option_bind].
    destruct (remove_swap_tabs n ind rev i x y HT Hi Hx Hy) as (HT2 & HS2 & HO2).
    set (ind2 := <[n - 1 := x]> (<[i := y]> ind)) in *. set (rev2 := <[y := i]> (<[x := n - 1]> rev)) in *.
    assert (HR2 : reord n ind rev ind2 rev2).
    { split_and!; [done| |done|done]. unfold rev2. by rewrite !insert_length. }
    assert (Hlast : ind2 !! (n - 1) = Some x).
    { unfold ind2. rewrite list_lookup_insert; [done|]. by rewrite insert_length. }
    assert (Hval2 : forall k, k < n - 1 -> val ind2 k = if decide (k = i) then Some v2 else val ind k).
    { intros k Hk. unfold ind2. rewrite (val_swap' ind i (n - 1) x y) by done.
      rewrite decide_False by lia. case_decide; [by rewrite Hv2|done]. }
    assert (HT2' : tabs ind2 rev2 (n - 1)) by (eapply tabs_mono; [|done]; lia).
    (* facts common to the three cases: edges not touching i are unchanged *)
    assert (Hedge : forall k, 0 < k < n - 1 -> k <> i -> par k <> i -> vle ind2 k (par k)).
    { intros k Hk Hki Hpi u v Hu Hv. pose proof (par_lt k). rewrite Hval2 in Hu, Hv by lia.
      rewrite decide_False in Hu by done. rewrite decide_False in Hv by done. eapply HH; [|done|done]. lia. }
    assert (Hgrand : forall k, 0 < k < n - 1 -> par k = i -> 0 < i -> vle ind2 k (par i)).
    { intros k Hk Hpi Hi0 u v Hu Hv. pose proof (par_lt k). pose proof (par_lt i). rewrite Hval2 in Hu, Hv by lia.
      rewrite decide_False in Hu by lia. rewrite decide_False in Hv by lia.
      eapply leP_trans; [done| |]; [eapply (HH k)|eapply (HH i)]; try done; try lia. by rewrite Hpi. }
    destruct (decide (i = n - 1)) as [Hin|Hin].
    { (* removing the last entry *)
      subst i. assert (v1 = v2) by congruence. subst v2.
      assert (ltb v1 v1 = false) as -> by apply Hs.
      exists ind2, rev2. split; [done|]. split; [done|]. split; [|by rewrite Hlast].
      intros k Hk. apply Hedge; [done|lia|]. pose proof (par_lt k). lia. }
    assert (Hn1 : 1 < n) by lia.
    destruct (ltb v2 v1) eqn:E1.
    - destruct (heapify_ok (n - 1) (n + 1) ind2 rev2 i) as (ind' & rev' & E & Hre & Hh); [done|lia|lia| |].
      { split; [|done]. intros k Hk Hpi. destruct (decide (k = i)) as [->|]; [|by apply Hedge].
        intros u v Hu Hv. pose proof (par_lt i). rewrite Hval2 in Hu, Hv by lia.
        rewrite decide_True in Hu by done. rewrite decide_False in Hv by lia. simplify_eq.
        eapply leP_trans; [done|by apply ltb_leP|]. eapply (HH i); [lia|done|done]. }
      destruct (reord_smaller n ind2 rev2 ind' rev' x Hn1 HT2 Hlast Hre) as [Hre' Hl'].
      exists ind', rev'. split; [done|]. split; [eapply reord_trans; [lia|done|done]|]. split; [done|]. by rewrite Hl'.
    - assert (Hge : v1 ≤v v2) by exact E1.
      assert (Hchild : forall k, 0 < k < n - 1 -> par k = i -> vle ind2 k i).
      { intros k Hk Hpi u v Hu Hv. pose proof (par_lt k). rewrite Hval2 in Hu, Hv by lia.
        rewrite decide_False in Hu by lia. rewrite decide_True in Hv by done. simplify_eq.
        eapply leP_trans; [done| |done]. eapply (HH k); [lia|done|done]. }
      destruct (ltb v1 v2) eqn:E2.
      + destruct (heapify_up_ok (n - 1) (n + 1) ind2 rev2 i) as (ind' & rev' & E & Hre & Hh & _); [done|lia|lia| |].
        { split; [|done]. intros k Hk Hki. destruct (decide (par k = i)) as [Ep|]; [|by apply Hedge].
          rewrite Ep. by apply Hchild. }
        destruct (reord_smaller n ind2 rev2 ind' rev' x Hn1 HT2 Hlast Hre) as [Hre' Hl'].
        exists ind', rev'. split; [done|]. split; [eapply reord_trans; [lia|done|done]|]. split; [done|]. by rewrite Hl'.
      + exists ind2, rev2. split; [done|]. split; [done|]. split; [|by rewrite Hlast].
        intros k Hk. destruct (decide (par k = i)) as [Ep|Hp]; [rewrite Ep; by apply Hchild|].
        destruct (decide (k = i)) as [->|]; [|by apply Hedge].
        intros u v Hu Hv. pose proof (par_lt i). rewrite Hval2 in Hu, Hv by lia.
        rewrite decide_True in Hu by done. rewrite decide_False in Hv by lia. simplify_eq.
        eapply leP_trans; [done|exact E2|]. eapply (HH i); [lia|done|done].
  Qed.
End heap.
