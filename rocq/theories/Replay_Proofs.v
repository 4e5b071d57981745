From Verif Require Import BaseLemmas OrderLemmas Sort_Spec Sort_Model Sort_Proofs Heap_Model Heap_Spec Heap_Proofs Replay_Model Replay_Spec.
Open Scope nat_scope.

Section replay.
  Context {V T : Type} (ltb : V -> V -> bool) (Hs : strict_weak_order ltb) (v0 v100 : V).
  Notation replay := (@replay V T).

  (** m = number of additions so far *)
  Record heap_inv (r : replay) (n : nat) : Prop := {
    hi_tab : forall k, k < n -> exists a, a < n /\ einds r !! k = Some a /\ erevs r !! a = Some k;
    hi_heap : heap ltb (errs r) (einds r) n;
    hi_errs : length (errs r) = cap r;
    hi_inds : length (einds r) = cap r;
    hi_revs : length (erevs r) = cap r;
    hi_cap : n <= cap r }.

  Lemma hi_tabs r n : heap_inv r n -> inverse_tables (errs r) (einds r) (erevs r) n.
  Proof. intros H k Hk. destruct (hi_tab r n H k Hk) as (a & Ha & E1 & E2). exists a. split; [done|]. split; [done|]. rewrite (hi_errs r n H). pose proof (hi_cap r n H). lia. Qed.

  Lemma reord_length n (values : list V) ind rev ind' rev' : reord values n ind rev ind' rev' -> length ind' = length ind /\ length rev' = length rev.
  Proof. intros (S1 & L1 & _). split; [|done]. apply Permutation_length. by eapply seg_perm_perm. Qed.

  Lemma reord_tab n (values : list V) ind rev ind' rev' : reord values n ind rev ind' rev' ->
    (forall k, k < n -> exists a, a < n /\ ind !! k = Some a) ->
    forall k, k < n -> exists a, a < n /\ ind' !! k = Some a /\ rev' !! a = Some k.
  Proof.
    intros (S1 & _ & T1 & _) H k Hk. destruct (T1 k Hk) as (a & E1 & E2 & _). exists a. split; [|done].
    destruct (seg_perm_inside _ _ _ _ S1 k a) as (k' & Hk' & E'); [lia|done|].
    destruct (H k') as (a' & ? & ?); [lia|]. congruence.
  Qed.

  Lemma heap_values_ext (vs vs' : list V) ind n :
    (forall k a, k < n -> ind !! k = Some a -> vs' !! a = vs !! a) -> heap ltb vs ind n -> heap ltb vs' ind n.
  Proof.
    intros H Hh k Hk u v Hu Hv. pose proof (par_lt k ltac:(lia)). eapply Hh; [done| |].
    - unfold value_at in *. destruct (ind !! k) as [a|] eqn:E; [|done]. cbn [mbind option_bind] in *. rewrite <- (H k a) by (done || lia). done.
    - unfold value_at in *. destruct (ind !! par k) as [a|] eqn:E; [|done]. cbn [mbind option_bind] in *. rewrite <- (H (par k) a) by (done || lia). done.
  Qed.

  (** the root of a heap is a maximum *)
  Lemma heap_root (vs : list V) ind rev n : inverse_tables vs ind rev n -> heap ltb vs ind n -> forall k, k < n -> vle ltb vs ind k 0.
  Proof.
    intros HT Hh k. induction (lt_wf k) as [k _ IH]. intros Hk. destruct (decide (k = 0)) as [->|]; [by apply vle_refl|].
    pose proof (par_lt k ltac:(lia)). destruct (tabs_val vs ind rev n (par k) HT) as [v Hv]; [lia|].
    eapply vle_trans; [done|exact Hv|apply Hh; lia|]. apply IH; lia.
  Qed.

  Lemma add_ok (r : replay) n : heap_inv r n -> n < cap r ->
    exists e ind' rev', add_buffer_state ltb v100 r n = Some (mkReplay (cap r) (cur r) (slots r) (<[n := e]> (errs r)) ind' rev') /\
      heap_inv (mkReplay (cap r) (cur r) (slots r) (<[n := e]> (errs r)) ind' rev') (n + 1) /\
      ind' !! 0 = Some n /\ (if decide (n = 0) then e = v100 else value_at (errs r) (einds r) 0 = Some e).
  Proof.
    intros H Hn. unfold add_buffer_state.
    assert (exists e, (if decide (n = 0) then Some v100 else a ← rd (einds r) 0; rd (errs r) a) = Some e /\
       (if decide (n = 0) then e = v100 else value_at (errs r) (einds r) 0 = Some e)) as (e & Ee & He).
    { case_decide; [eauto|]. destruct (tabs_val (errs r) (einds r) (erevs r) n 0 (hi_tabs r n H)) as [v Hv]; [lia|].
      exists v. split; [exact Hv|done]. }
    rewrite Ee. cbn [mbind option_bind].
    rewrite (wr_Some (errs r)) by (rewrite (hi_errs r n H); done). cbn [mbind option_bind].
    rewrite (wr_Some (einds r)) by (rewrite (hi_inds r n H); done). cbn [mbind option_bind].
    rewrite (wr_Some (erevs r)) by (rewrite (hi_revs r n H); done). cbn [mbind option_bind].
    set (vs := <[n := e]> (errs r)). set (ind1 := <[n := n]> (einds r)). set (rev1 := <[n := n]> (erevs r)).
    assert (Htab1 : forall k, k < n + 1 -> exists a, a < n + 1 /\ ind1 !! k = Some a /\ rev1 !! a = Some k).
    { intros k Hk. unfold ind1, rev1. destruct (decide (k = n)) as [->|].
      - exists n. split; [lia|]. rewrite !list_lookup_insert by (rewrite ?(hi_inds r n H), ?(hi_revs r n H); done). done.
      - destruct (hi_tab r n H k) as (a & ? & ? & ?); [lia|]. exists a. split; [lia|].
        rewrite !list_lookup_insert_ne by lia. done. }
    assert (HT1 : inverse_tables vs ind1 rev1 (n + 1)).
    { intros k Hk. destruct (Htab1 k Hk) as (a & ? & ? & ?). exists a. split; [done|]. split; [done|]. unfold vs. rewrite insert_length, (hi_errs r n H). lia. }
    assert (Hvn : value_at vs ind1 n = Some e).
    { unfold value_at, ind1, vs. rewrite list_lookup_insert by (rewrite (hi_inds r n H); done). cbn.
      rewrite list_lookup_insert by (rewrite (hi_errs r n H); done). done. }
    assert (Hvk : forall k, k < n -> value_at vs ind1 k = value_at (errs r) (einds r) k).
    { intros k Hk. unfold value_at, ind1, vs. rewrite list_lookup_insert_ne by lia.
      destruct (hi_tab r n H k Hk) as (a & ? & -> & ?). cbn. by rewrite list_lookup_insert_ne by lia. }
    destruct (heapify_up_ok ltb Hs vs (n + 1) (n + 1) ind1 rev1 n) as (ind' & rev' & E & Hre & Hh & Hroot).
    - done.
    - lia.
    - lia.
    - split.
      + intros k Hk Hne u v Hu Hv. pose proof (par_lt k). rewrite Hvk in Hu, Hv by lia. eapply (hi_heap r n H k); [lia|done|done].
      + intros k Hk Hp Hn0. pose proof (par_lt k). lia.
    - exists e, ind', rev'. rewrite E. split; [done|]. split.
      + split; cbn.
        * eapply reord_tab; [done|]. intros k Hk. destruct (Htab1 k Hk) as (a & ? & ? & ?). eauto.
        * done.
        * unfold vs. by rewrite insert_length, (hi_errs r n H).
        * destruct (reord_length _ _ _ _ _ _ Hre) as [-> _]. unfold ind1. by rewrite insert_length, (hi_inds r n H).
        * destruct (reord_length _ _ _ _ _ _ Hre) as [_ ->]. unfold rev1. by rewrite insert_length, (hi_revs r n H).
        * lia.
      + split; [|done]. rewrite Hroot.
        * unfold ind1. rewrite list_lookup_insert by (rewrite (hi_inds r n H); done). done.
        * intros k Hk u v Hu Hv. rewrite Hvn in Hv. simplify_eq.
          destruct (decide (k = n)) as [->|]; [rewrite Hvn in Hu; simplify_eq; by apply leP_refl|].
          rewrite Hvk in Hu by lia. case_decide as Hd; [lia|].
          eapply (heap_root (errs r) (einds r) (erevs r) n (hi_tabs r n H) (hi_heap r n H) k); [lia|done|done].
  Qed.

  (** update: the slot at position pos gets the error; everything else keeps its error *)
  Lemma update_ok (r : replay) n pos error s : heap_inv r n -> stored_length r = Some n -> pos < n ->
    einds r !! pos = Some s ->
    exists ind' rev', update_buffer_state ltb r pos error = Some (mkReplay (cap r) (cur r) (slots r) (<[s := error]> (errs r)) ind' rev') /\
      heap_inv (mkReplay (cap r) (cur r) (slots r) (<[s := error]> (errs r)) ind' rev') n /\
      ((forall k u, k < n -> errs r !! k = Some u -> leP ltb u error) -> ind' !! 0 = Some s).
  Proof.
    intros H Hlen Hpos Hsl. unfold update_buffer_state. rewrite Hlen. cbn [mbind option_bind].
    destruct (remove_ith_ok ltb Hs (errs r) n (einds r) (erevs r) pos (hi_tabs r n H) Hpos (hi_heap r n H)) as (ind1 & rev1 & E & Hre & Hh & Hlast).
    rewrite E. cbn [mbind option_bind fst snd]. rewrite decide_False by lia. unfold rd. rewrite Hlast, Hsl. cbn [mbind option_bind].
    destruct (hi_tab r n H pos Hpos) as (s' & Hs' & Es & Er). rewrite Hsl in Es. simplify_eq.
    pose proof (hi_cap r n H).
    rewrite (wr_Some (errs r)) by (rewrite (hi_errs r n H); lia). cbn [mbind option_bind].
    set (vs := <[s' := error]> (errs r)).
    assert (Htab1 : forall k, k < n -> exists a, a < n /\ ind1 !! k = Some a /\ rev1 !! a = Some k).
    { eapply reord_tab; [done|]. intros k Hk. destruct (hi_tab r n H k Hk) as (a & ? & ? & ?). eauto. }
    assert (HT1 : inverse_tables vs ind1 rev1 n).
    { intros k Hk. destruct (Htab1 k Hk) as (a & ? & ? & ?). exists a. split; [done|]. split; [done|]. unfold vs. rewrite insert_length, (hi_errs r n H). lia. }
    assert (Hne : forall k a, k < n - 1 -> ind1 !! k = Some a -> a <> s').
    { intros k a Hk Ha ->. assert (k = n - 1); [|lia]. eapply (tabs_inj vs ind1 rev1 n); [done|lia|lia|done|by rewrite Hlast]. }
    assert (Hh2 : heap ltb vs ind1 (n - 1)).
    { eapply heap_values_ext; [|done]. intros k a Hk Ha. unfold vs. rewrite list_lookup_insert_ne; [done|]. intros ->. by eapply Hne. }
    assert (Hvl : value_at vs ind1 (n - 1) = Some error).
    { unfold value_at. rewrite Hlast, Hsl. cbn. unfold vs. rewrite list_lookup_insert by (rewrite (hi_errs r n H); lia). done. }
    destruct (heapify_up_ok ltb Hs vs n n ind1 rev1 (n - 1)) as (ind' & rev' & E2 & Hre2 & Hh' & Hroot).
    - done.
    - lia.
    - lia.
    - split.
      + intros k Hk Hkn. apply Hh2. lia.
      + intros k Hk Hp Hn0. pose proof (par_child k (n - 1)). lia.
    - exists ind', rev'. rewrite E2. split; [done|]. split.
      + split; cbn.
        * eapply reord_tab; [done|]. intros k Hk. destruct (Htab1 k Hk) as (a & ? & ? & ?). eauto.
        * done.
        * unfold vs. by rewrite insert_length, (hi_errs r n H).
        * destruct (reord_length _ _ _ _ _ _ Hre2) as [-> _]. destruct (reord_length _ _ _ _ _ _ Hre) as [-> _]. apply (hi_inds r n H).
        * destruct (reord_length _ _ _ _ _ _ Hre2) as [_ ->]. destruct (reord_length _ _ _ _ _ _ Hre) as [_ ->]. apply (hi_revs r n H).
        * done.
      + intros Hmax. rewrite Hroot; [by rewrite Hlast|].
        intros k Hk u v Hu Hv. rewrite Hvl in Hv. simplify_eq.
        destruct (decide (k = n - 1)) as [->|]; [rewrite Hvl in Hu; simplify_eq; by apply leP_refl|].
        unfold value_at in Hu. destruct (Htab1 k Hk) as (a & Ha & Ea & _). rewrite Ea in Hu. cbn in Hu. unfold vs in Hu.
        rewrite list_lookup_insert_ne in Hu by (intros ->; eapply (Hne k); [lia|done|done]).
        by apply (Hmax a).
  Qed.
  Lemma hi_surj (r : replay) n a : heap_inv r n -> a < n -> exists k, k < n /\ einds r !! k = Some a /\ erevs r !! a = Some k.
  Proof.
    intros H Ha. pose proof (hi_cap r n H) as Hc. pose proof (hi_inds r n H) as Hl.
    assert (Hin : a ∈ take n (einds r)).
    { apply elem_of_list_In. apply (NoDup_length_incl (l := take n (einds r)) (l' := seq 0 n)).
      - apply NoDup_ListNoDup. apply NoDup_alt. intros i j x Hi Hj.
        apply lookup_take_Some in Hi as [Hi Hin]. apply lookup_take_Some in Hj as [Hj Hjn].
        eapply (tabs_inj (errs r) (einds r) (erevs r) n); [by apply hi_tabs|done|done|done|done].
      - rewrite seq_length, take_length. lia.
      - intros x Hx. apply elem_of_list_In, elem_of_list_lookup in Hx as [k Hk].
        apply lookup_take_Some in Hk as [Hk Hkn]. destruct (hi_tab r n H k Hkn) as (b & Hb & Eb & _).
        apply elem_of_list_In, elem_of_seq. rewrite Hk in Eb. simplify_eq. lia.
      - apply elem_of_list_In, elem_of_seq. lia. }
    apply elem_of_list_lookup in Hin as [k Hk]. apply lookup_take_Some in Hk as [Hk Hkn].
    destruct (hi_tab r n H k Hkn) as (b & Hb & Eb & Er). rewrite Hk in Eb. simplify_eq. eauto.
  Qed.

  Lemma hi_perm (r : replay) n : heap_inv r n -> take n (einds r) ≡ₚ seq 0 n.
  Proof.
    intros H. apply NoDup_Permutation.
    - apply NoDup_alt. intros i j x Hi Hj.
      apply lookup_take_Some in Hi as [Hi Hin]. apply lookup_take_Some in Hj as [Hj Hjn].
      eapply (tabs_inj (errs r) (einds r) (erevs r) n); [by apply hi_tabs|done|done|done|done].
    - apply NoDup_ListNoDup, seq_NoDup.
    - intros a. rewrite elem_of_seq. split.
      + intros [k Hk]%elem_of_list_lookup. apply lookup_take_Some in Hk as [Hk Hkn].
        destruct (hi_tab r n H k Hkn) as (b & Hb & Eb & _). rewrite Hk in Eb. simplify_eq. lia.
      + intros Ha. destruct (hi_surj r n a H) as (k & Hk & E & _); [lia|].
        apply elem_of_list_lookup. exists k. by apply lookup_take_Some.
  Qed.

  Record inv (c : nat) (xs : list T) (r : replay) : Prop := {
    i_cap : cap r = c;
    i_cur : cur r = length xs mod c;
    i_len : length (slots r) = c;
    i_slots : forall k o, slots r !! k = Some o -> latest_in_slot c xs k o;
    i_heap : heap_inv r (stored c (length xs)) }.

  Lemma inv_init c : 0 < c -> inv c [] (init_replay v0 c).
  Proof.
    intros Hc. split; cbn.
    - done.
    - by rewrite Nat.mod_0_l by lia.
    - by rewrite replicate_length.
    - intros k o Hk. apply lookup_replicate in Hk as [-> _]. cbn. lia.
    - unfold stored. rewrite Nat.min_0_r. split; cbn; try (by rewrite replicate_length); try lia.
      intros k Hk. lia.
  Qed.

  Lemma inv_stored c xs r : 0 < c -> inv c xs r -> stored_length r = Some (stored c (length xs)).
  Proof.
    intros Hc H. unfold stored_length, stored, rd. rewrite (i_cap _ _ _ H).
    destruct (lookup_lt_is_Some_2 (slots r) (c - 1)) as [o Ho]; [rewrite (i_len _ _ _ H); lia|].
    rewrite Ho. cbn [mbind option_bind]. pose proof (i_slots _ _ _ H _ _ Ho) as HL. destruct o as [t|]; cbn in HL.
    - destruct HL as (j & Hj & Hm & _). apply lookup_lt_Some in Hj. f_equal.
      pose proof (Nat.mod_le j c ltac:(lia)). lia.
    - rewrite (i_cur _ _ _ H). destruct (decide (c - 1 < length xs)) as [Hlt|Hlt].
      + exfalso. apply (HL (c - 1) Hlt). apply Nat.mod_small. lia.
      + rewrite Nat.mod_small by lia. f_equal. lia.
  Qed.

  Lemma latest_add c (xs : list T) k t o : 0 < c -> latest_in_slot c xs k o -> k <> length xs mod c -> latest_in_slot c (xs ++ [t]) k o.
  Proof.
    intros Hc HL Hk. destruct o as [u|]; cbn in *.
    - destruct HL as (j & Hj & Hm & Hlast). exists j. rewrite lookup_app_l by by eapply lookup_lt_Some.
      split; [done|]. split; [done|]. intros j' Hj'. rewrite app_length in Hj'. cbn in Hj'.
      destruct (decide (j' = length xs)) as [->|]; [done|]. apply Hlast. lia.
    - intros j Hj. rewrite app_length in Hj. cbn in Hj. destruct (decide (j = length xs)) as [->|]; [done|]. apply HL. lia.
  Qed.

  Lemma inv_add c xs r t : 0 < c -> inv c xs r ->
    exists r' e, add_experience ltb v100 r t = Some r' /\ inv c (xs ++ [t]) r' /\
      errs r' = <[(length xs mod c)%nat := e]> (errs r) /\
      (if decide (length xs = 0) then e = v100 else is_top ltb (errs r) (stored c (length xs)) e) /\
      einds r' !! 0 = Some (length xs mod c).
  Proof.
    intros Hc H. set (m := length xs). unfold add_experience.
    assert (Hcur : cur r < c). { rewrite (i_cur _ _ _ H). apply Nat.mod_upper_bound. lia. }
    destruct (lookup_lt_is_Some_2 (slots r) (cur r)) as [o Ho]; [rewrite (i_len _ _ _ H); lia|].
    unfold rd. rewrite Ho. cbn [mbind option_bind].
    rewrite (wr_Some (slots r)) by (rewrite (i_len _ _ _ H); done). cbn [mbind option_bind].
    set (sl := <[cur r := Some t]> (slots r)).
    assert (Hsl : forall k o, sl !! k = Some o -> latest_in_slot c (xs ++ [t]) k o).
    { intros k o' Hk. unfold sl in Hk. destruct (decide (k = cur r)) as [->|Hne].
      - rewrite list_lookup_insert in Hk by (rewrite (i_len _ _ _ H); done). simplify_eq. cbn.
        exists (length xs). rewrite lookup_app_r by lia. replace (length xs - length xs) with 0 by lia.
        split; [done|]. split; [by rewrite (i_cur _ _ _ H)|]. intros j' Hj'. rewrite app_length in Hj'. cbn in Hj'. lia.
      - rewrite list_lookup_insert_ne in Hk by done. apply latest_add; [done| |by rewrite <- (i_cur _ _ _ H)].
        by apply (i_slots _ _ _ H). }
    assert (Hlen : length sl = c). { unfold sl. rewrite insert_length. apply (i_len _ _ _ H). }
    assert (Hm1 : length (xs ++ [t]) = m + 1) by (rewrite app_length; done).
    assert (Hmod : (length xs mod c + 1) mod c = (m + 1) mod c).
    { unfold m. rewrite Nat.add_mod_idemp_l by lia. done. }
    pose proof (i_slots _ _ _ H _ _ Ho) as HL.
    pose proof (i_heap _ _ _ H) as HH.
    destruct o as [u|]; cbn in HL.
    - (* overwrite *)
      assert (Hmc : c <= m).
      { destruct HL as (j & Hj & Hm & _). apply lookup_lt_Some in Hj. rewrite (i_cur _ _ _ H) in Hm.
        destruct (decide (c <= m)); [done|]. fold m in Hm, Hj. rewrite (Nat.mod_small m) in Hm by lia. rewrite Nat.mod_small in Hm by lia. lia. }
      assert (Hst : stored c (length xs) = c) by (unfold stored; fold m; lia). rewrite Hst in *.
      set (r1 := mkReplay (cap r) (cur r) sl (errs r) (einds r) (erevs r)).
      assert (HH1 : heap_inv r1 c). { destruct HH. split; done. }
      destruct (hi_surj r1 c (cur r) HH1 Hcur) as (pos & Hpos & Ep & Er).
      cbn in Ep, Er. cbn. rewrite Er. cbn [mbind option_bind].
      destruct (tabs_val (errs r) (einds r) (erevs r) c 0 (hi_tabs r c HH)) as [top Htop]; [lia|].
      pose proof Htop as Htop'. unfold value_at in Htop'.
      destruct (einds r !! 0) as [a0|] eqn:Ea0; [|done]. cbn [mbind option_bind].
      cbn in Htop'. rewrite Htop'. cbn [mbind option_bind].
      destruct (update_ok r1 c pos top (cur r) HH1) as (ind' & rev' & E & HH2 & Hroot).
      { unfold stored_length, rd. cbn. rewrite (i_cap _ _ _ H).
        destruct (lookup_lt_is_Some_2 sl (c - 1)) as [o Ho2]; [lia|]. rewrite Ho2. cbn [mbind option_bind].
        pose proof (Hsl _ _ Ho2) as HL2. destruct o as [|]; [done|]. exfalso. cbn in HL2.
        apply (HL2 (c - 1)); [rewrite Hm1; lia|]. apply Nat.mod_small. lia. }
      { done. } { done. }
      assert (Hmax : forall k u, k < c -> errs r !! k = Some u -> leP ltb u top).
      { intros k w Hk Hw. destruct (hi_surj r c k HH Hk) as (q & Hq & Eq & _).
        eapply (heap_root (errs r) (einds r) (erevs r) c (hi_tabs r c HH) (hi_heap r c HH) q Hq); [|done].
        unfold value_at. rewrite Eq. done. }
      rewrite E. cbn [mbind option_bind].
      eexists _, top. split; [reflexivity|]. cbn. split; [|split_and!].
      + split; cbn.
        * by rewrite (i_cap _ _ _ H).
        * rewrite Hm1, <- Hmod, (i_cap _ _ _ H), (i_cur _ _ _ H). done.
        * done.
        * done.
        * replace (stored c (length (xs ++ [t]))) with c by (rewrite Hm1; unfold stored; lia).
          destruct HH2. split; done.
      + by rewrite (i_cur _ _ _ H).
      + rewrite decide_False by (fold m; lia). split.
        * exists a0. split; [|done]. destruct (hi_tab r c HH 0) as (b & ? & Eb & _); [lia|]. assert (a0 = b) as -> by congruence. unfold stored; fold m; lia.
        * intros k w Hk. apply Hmax. unfold stored in Hk; lia.
      + fold m in H; unfold m; rewrite <- (i_cur _ _ _ H). apply Hroot. exact Hmax.
    - (* first use of the slot *)
      assert (Hmc : m < c).
      { destruct (decide (m < c)); [done|]. exfalso.
        (* the residue class of cur r has a representative below m *)
        apply (HL (m mod c)).
        - pose proof (Nat.mod_upper_bound m c). fold m. lia.
        - rewrite Nat.mod_mod by lia. by rewrite (i_cur _ _ _ H). }
      assert (Hst : stored c (length xs) = m) by (unfold stored; fold m; lia). rewrite Hst in *.
      assert (Hcm : cur r = m). { rewrite (i_cur _ _ _ H). apply Nat.mod_small. done. }
      set (r1 := mkReplay (cap r) (cur r) sl (errs r) (einds r) (erevs r)).
      assert (HH1 : heap_inv r1 m). { destruct HH. split; done. }
      destruct (add_ok r1 m HH1) as (e & ind' & rev' & E & HH2 & Hroot & He); [cbn; rewrite (i_cap _ _ _ H); done|].
      replace (add_buffer_state ltb v100 r1 (cur r)) with (add_buffer_state ltb v100 r1 m) by (f_equal; done). rewrite E. cbn [mbind option_bind].
      assert (Hmm : length xs mod c = m) by (apply Nat.mod_small; done).
      eexists _, e. split; [reflexivity|]. cbn. split; [|split_and!].
      + split; cbn.
        * by rewrite (i_cap _ _ _ H).
        * rewrite Hm1, <- Hmod, (i_cap _ _ _ H), (i_cur _ _ _ H). done.
        * done.
        * done.
        * replace (stored c (length (xs ++ [t]))) with (m + 1) by (rewrite Hm1; unfold stored; lia).
          destruct HH2. split; done.
      + fold m in Hmm; by rewrite Hmm.
      + fold m. case_decide; [done|]. replace (stored c m) with m by (unfold stored; lia). split.
        * unfold value_at in He. cbn in He. destruct (hi_tab r m HH 0) as (b & ? & Eb & _); [lia|]. rewrite Eb in He. cbn in He. eauto.
        * intros k w Hk Hw. destruct (hi_surj r m k HH Hk) as (q & Hq & Eq & _).
          eapply (heap_root (errs r) (einds r) (erevs r) m (hi_tabs r m HH) (hi_heap r m HH) q Hq); [|done].
          unfold value_at. rewrite Eq. done.
      + fold m in Hmm; by rewrite Hmm.
  Qed.

  Lemma inv_update c xs r pos e : 0 < c -> inv c xs r -> pos < stored c (length xs) ->
    exists r' s, update_buffer_state ltb r pos e = Some r' /\ inv c xs r' /\ s < stored c (length xs) /\
      einds r !! pos = Some s /\ errs r' = <[s := e]> (errs r) /\ slots r' = slots r.
  Proof.
    intros Hc H Hpos. destruct (hi_tab r _ (i_heap _ _ _ H) pos Hpos) as (s & Hs1 & Es & _).
    destruct (update_ok r _ pos e s (i_heap _ _ _ H) (inv_stored c xs r Hc H) Hpos Es) as (ind' & rev' & E & HH & _).
    eexists _, s. split; [done|]. split; [|done]. destruct H. split; done.
  Qed.

  Lemma run_inv c : 0 < c -> forall os xs r, inv c xs r -> valid_history c (length xs) os ->
    exists r', run ltb v100 r os = Some r' /\ inv c (xs ++ added os) r'.
  Proof.
    intros Hc. induction os as [|o os IH]; intros xs r H HV; cbn.
    - exists r. split; [done|]. by rewrite app_nil_r.
    - destruct o as [t|pos e]; cbn in *.
      + destruct (inv_add c xs r t Hc H) as (r' & e & E & H' & _). rewrite E. cbn [mbind option_bind].
        destruct (IH (xs ++ [t]) r' H') as (r'' & E' & H''); [by rewrite app_length|].
        exists r''. split; [done|]. by rewrite <- app_assoc in H''.
      + destruct HV as [Hp HV]. destruct (inv_update c xs r pos e Hc H Hp) as (r' & s & E & H' & _). rewrite E.
        cbn [mbind option_bind]. by apply IH.
  Qed.

  (** storing the errors of a batch *)
  Lemma store_inv c xs rb es : 0 < c -> (forall i pos, rb !! i = Some pos -> pos < stored c (length xs)) -> length es = length rb ->
    forall cnt i r, inv c xs r -> i + cnt = length rb ->
    exists r', store_errors_from ltb r rb es i cnt = Some r' /\ inv c xs r' /\ slots r' = slots r.
  Proof.
    intros Hc Hrb Hle. induction cnt as [|cnt IH]; intros i r H Hi; cbn.
    - eauto.
    - destruct (lookup_lt_is_Some_2 rb i) as [pos Hpos]; [lia|]. unfold rd. rewrite Hpos. cbn [mbind option_bind].
      destruct (index_inside rb i pos); cbn [mbind option_bind].
      + apply IH; [done|lia].
      + destruct (lookup_lt_is_Some_2 es i) as [e He]; [lia|]. rewrite He. cbn [mbind option_bind].
        destruct (inv_update c xs r pos e Hc H (Hrb _ _ Hpos)) as (r' & s & E & H' & _ & _ & _ & Esl). rewrite E. cbn [mbind option_bind].
        destruct (IH (S i) r' H') as (r'' & ? & ? & ?); [lia|]. exists r''. split_and!; [done|done|congruence].
  Qed.

  (** when only one heap position was sampled, later iterations change nothing *)
  Lemma store_same (r : replay) rb es pos0 : (forall i pos, rb !! i = Some pos -> pos = pos0) ->
    forall cnt i, 0 < i -> i + cnt <= length rb -> store_errors_from ltb r rb es i cnt = Some r.
  Proof.
    intros Hall. induction cnt as [|cnt IH]; intros i Hi Hl; cbn; [done|].
    destruct (lookup_lt_is_Some_2 rb i) as [pos Hpos]; [lia|]. unfold rd. rewrite Hpos. cbn [mbind option_bind].
    assert (pos = pos0) as -> by by eapply Hall.
    assert (index_inside rb i pos0 = true) as ->.
    { unfold index_inside. apply bool_decide_eq_true. apply elem_of_list_lookup. exists 0.
      destruct (lookup_lt_is_Some_2 rb 0) as [p0 Hp0]; [lia|]. rewrite lookup_take by lia.
      rewrite Hp0. f_equal. by eapply Hall. }
    cbn [mbind option_bind]. apply IH; lia.
  Qed.
End replay.
