From Verif Require Import Base BaseLemmas OrderLemmas Sort_Spec Sort_Model Sort_Proofs Sort_Props.
From Verif Require Import Shuffle_Model Shuffle_Spec Neat_Model Neat_Spec Neat_Proofs.
Open Scope nat_scope.

Lemma natltb_swo : strict_weak_order Nat.ltb.
Proof.
  split_and!.
  - intros x. apply Nat.ltb_irrefl.
  - intros x y z H1 H2. apply Nat.ltb_lt in H1, H2. apply Nat.ltb_lt. lia.
  - intros x y z H1 H2. apply Nat.ltb_ge in H1, H2. apply Nat.ltb_ge. lia.
Qed.

Lemma mapM_cons_inv {A B} (f : A -> option B) x l k :
  mapM f (x :: l) = Some k -> exists b k1, f x = Some b /\ mapM f l = Some k1 /\ k = b :: k1.
Proof.
  cbn. intros E. apply bind_Some in E as (b & Eb & E). apply bind_Some in E as (k1 & Ek & E).
  apply (inj Some) in E. by exists b, k1.
Qed.

Lemma mapM_perm {A B} (f : A -> option B) (l l' : list A) : l ≡ₚ l' -> forall k,
  mapM f l = Some k -> exists k', mapM f l' = Some k' /\ k' ≡ₚ k.
Proof.
  intros H. induction H as [|x l l' H IH|x y l|l l' l'' H1 IH1 H2 IH2]; intros k E.
  - exists k. done.
  - apply mapM_cons_inv in E as (b & k1 & Eb & Ek & ->).
    destruct (IH _ Ek) as (k' & E' & P). exists (b :: k'). cbn. rewrite Eb. cbn. rewrite E'. cbn. split; [done|].
    apply perm_skip. exact P.
  - apply mapM_cons_inv in E as (b & k1 & Eb & Ek & ->).
    apply mapM_cons_inv in Ek as (c & k2 & Ec & Ek & ->).
    exists (c :: b :: k2). cbn. rewrite Ec. cbn. rewrite Eb. cbn. rewrite Ek. cbn. split; [done|]. apply perm_swap.
  - destruct (IH1 _ E) as (k1 & E1 & P1). destruct (IH2 _ E1) as (k2 & E2 & P2). exists k2. split; [done|].
    by rewrite P2.
Qed.

Lemma mapM_rd_lookup {A} (l : list A) is_ l' :
  mapM (rd l) is_ = Some l' -> length l' = length is_ /\
  forall p i, is_ !! p = Some i -> exists x, l' !! p = Some x /\ l !! i = Some x.
Proof.
  revert l'. induction is_ as [|j is_ IH]; intros l' E.
  - apply (inj Some) in E. subst l'. split; [done|]. intros p i H. by rewrite lookup_nil in H.
  - apply mapM_cons_inv in E as (x & l1 & Ex & E1 & ->).
    destruct (IH _ E1) as [El H]. split; [cbn; lia|]. intros [|p] i Hi; cbn in *.
    + simplify_eq. by exists x.
    + by apply H.
Qed.

Lemma mapM_rd_seq {A} (l : list A) : mapM (rd l) (seq 0 (length l)) = Some l.
Proof.
  cut (forall k, mapM (rd (k ++ l)) (seq (length k) (length l)) = Some l). { intros H. apply (H []). }
  induction l as [|x l IH]; intros k; cbn; [done|].
  assert (E : rd (k ++ x :: l) (length k) = Some x).
  { unfold rd. by rewrite lookup_app_r, Nat.sub_diag by lia. }
  rewrite E. cbn. replace (k ++ x :: l) with ((k ++ [x]) ++ l) by by rewrite <- app_assoc.
  replace (S (length k)) with (length (k ++ [x])) by (rewrite app_length; cbn; lia).
  by rewrite IH.
Qed.

(** sorting by a key whose values are distinct *)
Lemma sort_by_key {X} (f : X -> nat) (l : list X) :
  NoDup (f <$> l) ->
  exists is_ l', quick_sort_array Nat.ltb (f <$> l) (seq 0 (length l)) = Some is_ /\
    is_ ≡ₚ seq 0 (length l) /\ mapM (rd l) is_ = Some l' /\ l' ≡ₚ l /\ increasing (f <$> l').
Proof.
  intros Hnd.
  destruct (C04_quick_sort_whole_array nat Nat.ltb (f <$> l) (seq 0 (length l)) natltb_swo) as (is_ & E & P & As).
  { intros a Ha. apply elem_of_seq in Ha. rewrite fmap_length. lia. }
  destruct (mapM_perm (rd l) (seq 0 (length l)) is_ (symmetry P) l (mapM_rd_seq l)) as (l' & E' & P').
  exists is_, l'. split_and!; [done..|].
  intros i j x y Hij Hx Hy. rewrite list_lookup_fmap in Hx, Hy.
  destruct (l' !! i) as [a|] eqn:Ea; [|done]. destruct (l' !! j) as [b|] eqn:Eb; [|done]. cbn in *. simplify_eq.
  destruct (mapM_rd_lookup _ _ _ E') as [El Hl].
  destruct (lookup_lt_is_Some_2 is_ i) as [p Hp]; [rewrite <- El; by eapply lookup_lt_Some|].
  destruct (lookup_lt_is_Some_2 is_ j) as [q Hq]; [rewrite <- El; by eapply lookup_lt_Some|].
  destruct (Hl _ _ Hp) as (a' & Ha' & Hla); rewrite Ea in Ha'; apply (inj Some) in Ha'; subst a'. 
  destruct (Hl _ _ Hq) as (b' & Hb' & Hlb); rewrite Eb in Hb'; apply (inj Some) in Hb'; subst b'.
  assert (Hle : Nat.ltb (f b) (f a) = false).
  { apply (As i j (f a) (f b)).
    - lia.
    - rewrite seq_length. apply lookup_lt_Some in Hq. rewrite (Permutation_length P), seq_length in Hq. lia.
    - unfold value_at. rewrite Hp. cbn. by rewrite list_lookup_fmap, Hla.
    - unfold value_at. rewrite Hq. cbn. by rewrite list_lookup_fmap, Hlb. }
  apply Nat.ltb_ge in Hle. destruct (decide (f a = f b)) as [Heq|Hne]; [|lia]. exfalso.
  assert (Hnd' : NoDup (f <$> l')) by by rewrite P'.
  assert (i = j); [|lia]. rewrite NoDup_alt in Hnd'. apply (Hnd' i j (f a)).
  - by rewrite list_lookup_fmap, Ea.
  - by rewrite list_lookup_fmap, Eb, Heq.
Qed.

Lemma position_lookup i l : i ∈ l -> l !! position i l = Some i.
Proof.
  induction l as [|j l IH]; intros H; [by apply elem_of_nil in H|]. cbn. case_decide as Ej; [by subst|].
  cbn. apply elem_of_cons in H as [->|H]; [done|by apply IH].
Qed.

Lemma position_unique i l p : NoDup l -> l !! p = Some i -> position i l = p.
Proof.
  intros Hnd Hp. rewrite NoDup_alt in Hnd. apply (Hnd _ _ i); [|done]. apply position_lookup.
  by eapply elem_of_list_lookup_2.
Qed.

Lemma increasing_base l m :
  increasing l -> (forall x, x ∈ l -> 1 <= x) -> (forall x, 1 <= x <= m -> x ∈ l) ->
  forall i, i < m -> l !! i = Some (i + 1).
Proof.
  intros Hinc Hge Hall i. induction i as [i IH] using lt_wf_ind. intros Hi.
  assert (Hin : i + 1 ∈ l) by (apply Hall; lia). apply elem_of_list_lookup in Hin as [j Hj].
  destruct (lt_eq_lt_dec j i) as [[Hlt| ->]|Hgt]; [|done|].
  - rewrite (IH j Hlt) in Hj by lia. simplify_eq. lia.
  - destruct (lookup_lt_is_Some_2 l i) as [y Hy]. { apply lookup_lt_Some in Hj. lia. }
    pose proof (Hinc _ _ _ _ Hgt Hy Hj) as H1.
    assert (H2 : 1 <= y) by (apply Hge; by eapply elem_of_list_lookup_2).
    pose proof (IH (y - 1) ltac:(lia) ltac:(lia)) as H3.
    assert (H4 : y < y); [|lia]. apply (Hinc (y - 1) i y y); [lia| |done].
    by replace (y - 1 + 1) with y in H3 by lia.
Qed.

Section tidy.
  Context {W : Type}.
  Implicit Types g : genome W.

  Lemma sort_conns_ok g ks cs :
    mapM (rd (g_conns g)) ks = Some cs -> NoDup (c_inn <$> cs) ->
    exists ks' cs', sort_conns g ks = Some ks' /\ ks' ≡ₚ ks /\ mapM (rd (g_conns g)) ks' = Some cs' /\
      increasing (c_inn <$> cs').
  Proof.
    intros Hcs Hnd. unfold sort_conns.
    assert (E : forall ks (cs : list (conn W)), mapM (rd (g_conns g)) ks = Some cs ->
              mapM (fun k => c ← rd (g_conns g) k; Some (c_inn c)) ks = Some (c_inn <$> cs)).
    { clear. induction ks as [|k ks IH]; intros cs H.
      - apply (inj Some) in H. by subst cs.
      - apply mapM_cons_inv in H as (c & cs' & Ec & Ecs & ->). cbn.
        rewrite Ec. cbn. by rewrite (IH _ Ecs). }
    rewrite (E _ _ Hcs). cbn [mbind option_bind].
    pose proof (proj1 (mapM_rd_lookup _ _ _ Hcs)) as Hlen.
    destruct (sort_by_key c_inn cs Hnd) as (is_ & cs' & Es & P & Em & P' & Hinc). rewrite <- Hlen, Es.
    cbn [mbind option_bind].
    assert (Pk : exists ks', mapM (rd ks) is_ = Some ks' /\ ks' ≡ₚ ks).
    { apply (mapM_perm (rd ks) (seq 0 (length ks)) is_); [|apply mapM_rd_seq]. by rewrite P, Hlen. }
    destruct Pk as (ks' & Ek & Pk). exists ks', cs'. split_and!; [done|done| |done].
    clear Hinc E Es Pk P P' Hnd.
    revert ks' cs' Ek Em. induction is_ as [|i is_ IH]; intros ks' cs' Ek Em.
    - apply (inj Some) in Ek, Em. by subst.
    - apply mapM_cons_inv in Ek as (k & ks1 & Ek & Ek1 & ->).
      apply mapM_cons_inv in Em as (c & cs1 & Ec & Ec1 & ->).
      cbn. destruct (mapM_rd_lookup _ _ _ Hcs) as [_ Hl]. destruct (Hl i k Ek) as (c' & Hc' & Hk).
      assert (Hk' : rd (g_conns g) k = Some c) by (unfold rd in *; congruence).
      rewrite Hk'. cbn. by rewrite (IH _ _ Ek1 Ec1).
  Qed.

  Lemma mapM_Some_2 {A B} (f : A -> option B) l : (forall x, x ∈ l -> is_Some (f x)) -> is_Some (mapM f l).
  Proof.
    induction l as [|x l IH]; intros H; cbn; [by eexists|].
    destruct (H x) as [b ->]; [left|]. cbn. destruct IH as [k ->]; [|by eexists].
    intros y Hy. apply H. by right.
  Qed.

  (** the connections a list of pointers leads to have distinct numbers *)
  Lemma pointers_distinct g ks :
    NoDup (c_inn <$> g_conns g) -> NoDup ks -> (forall k, k ∈ ks -> k < length (g_conns g)) ->
    exists cs, mapM (rd (g_conns g)) ks = Some cs /\ NoDup (c_inn <$> cs).
  Proof.
    intros Hnd Hks Hin. destruct (mapM_Some_2 (rd (g_conns g)) ks) as [cs E].
    { intros k Hk. unfold rd. apply lookup_lt_is_Some_2. by apply Hin. }
    exists cs. split; [done|]. destruct (mapM_rd_lookup _ _ _ E) as [El Hl].
    apply NoDup_alt. intros i j x Hi Hj. rewrite list_lookup_fmap in Hi, Hj.
    destruct (cs !! i) as [a|] eqn:Ea; [|done]. destruct (cs !! j) as [b|] eqn:Eb; [|done]. cbn in *.
    apply (inj Some) in Hi, Hj.
    destruct (lookup_lt_is_Some_2 ks i) as [p Hp]; [rewrite <- El; by eapply lookup_lt_Some|].
    destruct (lookup_lt_is_Some_2 ks j) as [q Hq]; [rewrite <- El; by eapply lookup_lt_Some|].
    destruct (Hl _ _ Hp) as (a' & Ha' & Hpa). destruct (Hl _ _ Hq) as (b' & Hb' & Hqb).
    assert (p = q).
    { rewrite NoDup_alt in Hnd. apply (Hnd p q x); rewrite list_lookup_fmap.
      - rewrite Hpa. cbn. congruence.
      - rewrite Hqb. cbn. congruence. }
    subst q. rewrite NoDup_alt in Hks. by apply (Hks i j p).
  Qed.

  Lemma adjust_ok ip op G g :
    well_formed ip op G g ->
    exists g', adjust_genome g = Some g' /\ well_formed ip op G g' /\ tidied g g' /\
      (Forall (fun n => n_bias n = None) (g_nodes g) -> Forall (fun n => n_bias n = None) (g_nodes g')).
  Proof.
    intros Hw. unfold adjust_genome.
    destruct (sort_by_key n_inn (g_nodes g) (wf_numbers _ _ _ _ Hw)) as (is_ & ns & E1 & P & E2 & Pn & Hinc).
    rewrite E1. cbn [mbind option_bind]. rewrite E2. cbn [mbind option_bind].
    destruct (mapM_rd_lookup _ _ _ E2) as [Hlen Hl].
    assert (Hnd : NoDup is_) by (rewrite P; apply NoDup_seq).
    assert (Hin : forall i, i < length (g_nodes g) -> i ∈ is_).
    { intros i Hi. rewrite P. apply elem_of_seq. lia. }
    assert (Hkey : forall n ks, n ∈ g_nodes g -> ks = n_in n \/ ks = n_out n ->
              exists ks' cs', sort_conns g ks = Some ks' /\ ks' ≡ₚ ks /\ mapM (rd (g_conns g)) ks' = Some cs' /\
                increasing (c_inn <$> cs')).
    { intros n ks Hn Hks. apply elem_of_list_lookup in Hn as [i Hi].
      destruct (wf_lists _ _ _ _ Hw _ _ Hi) as (N1 & N2 & L1 & L2).
      destruct (pointers_distinct g ks) as (cs & Ecs & Ncs).
      - apply (wf_genes _ _ _ _ Hw).
      - by destruct Hks as [->| ->].
      - intros k Hk. destruct Hks as [->| ->].
        + apply L2 in Hk as (c & Hc & _). by eapply lookup_lt_Some.
        + apply L1 in Hk as (c & Hc & _). by eapply lookup_lt_Some.
      - by apply (sort_conns_ok g ks cs). }
    set (f := fun n => ins ← sort_conns g (n_in n); outs ← sort_conns g (n_out n);
                       Some (mkNode (n_inn n) ins outs (n_bias n))).
    assert (Hf : forall n, n ∈ g_nodes g -> exists n' ins outs cs1 cs2, f n = Some n' /\ n_inn n' = n_inn n /\ n_bias n' = n_bias n /\
              n_in n' = ins /\ n_out n' = outs /\ ins ≡ₚ n_in n /\ outs ≡ₚ n_out n /\
              mapM (rd (g_conns g)) ins = Some cs1 /\ increasing (c_inn <$> cs1) /\
              mapM (rd (g_conns g)) outs = Some cs2 /\ increasing (c_inn <$> cs2)).
    { intros n Hn. destruct (Hkey n (n_in n) Hn (or_introl eq_refl)) as (k1 & c1 & A1 & A2 & A3 & A4).
      destruct (Hkey n (n_out n) Hn (or_intror eq_refl)) as (k2 & c2 & B1 & B2 & B3 & B4).
      unfold f. rewrite A1. cbn. rewrite B1. cbn. eexists _, k1, k2, c1, c2. split; [done|]. cbn. done. }
    destruct (mapM_Some_2 f ns) as [ns' E3].
    { intros n Hn. rewrite Pn in Hn. destruct (Hf n Hn) as (n' & ? & ? & ? & ? & -> & _). by eexists. }
    rewrite E3. cbn [mbind option_bind].
    assert (Hns' : forall p, match ns' !! p with
              | None => ns !! p = None
              | Some n' => exists n, ns !! p = Some n /\ f n = Some n' end).
    { intros p. apply mapM_Some in E3. destruct (ns' !! p) as [n'|] eqn:En.
      - destruct (Forall2_lookup_r _ _ _ _ _ E3 En) as (n & Hn & Hfn). by exists n.
      - apply lookup_ge_None in En. apply lookup_ge_None. by rewrite (Forall2_length _ _ _ E3). }
    assert (Hnum : n_inn <$> ns' = n_inn <$> ns).
    { apply list_eq. intros p. rewrite !list_lookup_fmap. specialize (Hns' p).
      destruct (ns' !! p) as [n'|] eqn:En'.
      - destruct Hns' as (n & En & Hfn). rewrite En. cbn. f_equal.
        assert (Hn : n ∈ g_nodes g) by (rewrite <- Pn; by eapply elem_of_list_lookup_2).
        destruct (Hf n Hn) as (n2 & ? & ? & ? & ? & Hf2 & ? & _). congruence.
      - by rewrite Hns'. }
    assert (Hnode : forall i x, g_nodes g !! i = Some x ->
              exists x', ns' !! position i is_ = Some x' /\ n_inn x' = n_inn x).
    { intros i x Hx. assert (Hi : i ∈ is_) by (apply Hin; by eapply lookup_lt_Some).
      apply position_lookup in Hi. destruct (Hl _ _ Hi) as (y & Hy & Hy'). rewrite Hx in Hy'; apply (inj Some) in Hy'; subst y.
      assert (Ey : (n_inn <$> ns') !! position i is_ = Some (n_inn x)) by (by rewrite Hnum, list_lookup_fmap, Hy).
      rewrite list_lookup_fmap in Ey. destruct (ns' !! position i is_) as [x'|]; [|done]. cbn in Ey. apply (inj Some) in Ey. by exists x'. }
    (* a node of the result comes from a node of g *)
    assert (Hback : forall p n', ns' !! p = Some n' ->
              exists i n, is_ !! p = Some i /\ position i is_ = p /\ g_nodes g !! i = Some n /\ f n = Some n' /\ n ∈ g_nodes g).
    { intros p n' Hp. pose proof (Hns' p) as H. rewrite Hp in H. destruct H as (n & Hn & Hfn).
      destruct (lookup_lt_is_Some_2 is_ p) as [i Hi]; [rewrite <- Hlen; by eapply lookup_lt_Some|].
      destruct (Hl _ _ Hi) as (y & Hy & Hgy). rewrite Hn in Hy; apply (inj Some) in Hy; subst y. exists i, n. split_and!; [done| |done|done|].
      - by apply position_unique.
      - by eapply elem_of_list_lookup_2. }
    set (mv := fun c : conn W => mkConn (c_inn c) (position (c_src c) is_) (position (c_dst c) is_) (c_flag c) (c_weight c)).
    eexists. split; [done|].
    assert (Hpos : forall i j, i < length (g_nodes g) -> j < length (g_nodes g) -> position i is_ = position j is_ -> i = j).
    { intros i j Hi Hj E. pose proof (position_lookup i is_ (Hin i Hi)) as H1.
      pose proof (position_lookup j is_ (Hin j Hj)) as H2. rewrite E in H1. by simplify_eq. }
    assert (Hends : forall k c, g_conns g !! k = Some c -> c_src c < length (g_nodes g) /\ c_dst c < length (g_nodes g)).
    { intros k c Hc. destruct (wf_ends _ _ _ _ Hw _ _ Hc) as (p & x & y & _ & Hx & Hy & _).
      split; by eapply lookup_lt_Some. }
    split; [|split].
    - (* well formed *)
      constructor; cbn.
      + apply (wf_input _ _ _ _ Hw).
      + apply (wf_output _ _ _ _ Hw).
      + intros i Hi.
        assert (H : (n_inn <$> ns') !! i = Some (i + 1)).
        { rewrite Hnum. apply (increasing_base (n_inn <$> ns) (ip + op)); [done| | |done].
          - intros x Hx. rewrite Pn in Hx. by apply (wf_range _ _ _ _ Hw).
          - intros x Hx. rewrite Pn. destruct (wf_base _ _ _ _ Hw (x - 1)) as (n & Hn & En); [lia|].
            apply elem_of_list_fmap. exists n. split; [lia|]. by eapply elem_of_list_lookup_2. }
        rewrite list_lookup_fmap in H. destruct (ns' !! i) as [n|]; [|done]. cbn in H. simplify_eq. by exists n.
      + unfold node_numbers. cbn. rewrite Hnum, Pn. apply (wf_numbers _ _ _ _ Hw).
      + intros a Ha. unfold node_numbers in Ha. cbn in Ha. rewrite Hnum, Pn in Ha. by apply (wf_range _ _ _ _ Hw).
      + rewrite <- list_fmap_compose. apply (wf_genes _ _ _ _ Hw).
      + intros k c Hc. rewrite list_lookup_fmap in Hc. destruct (g_conns g !! k) as [d|] eqn:Ed; [|done]. cbn in Hc. simplify_eq. cbn.
        destruct (wf_ends _ _ _ _ Hw _ _ Ed) as (p & x & y & Hp & Hx & Hy & Hm).
        destruct (Hnode _ _ Hx) as (x' & Hx' & Nx). destruct (Hnode _ _ Hy) as (y' & Hy' & Ny).
        exists p, x', y'. split_and!; [done..|]. by rewrite Nx, Ny.
      + intros p n' Hp. destruct (Hback _ _ Hp) as (i & n & Hi & Hpi & Hn & Hfn & Hin').
        destruct (Hf n Hin') as (n2 & ins & outs & cs1 & cs2 & Hf2 & _ & _ & Ein & Eout & P1 & P2 & _).
        rewrite Hfn in Hf2. simplify_eq.
        destruct (wf_lists _ _ _ _ Hw _ _ Hn) as (N1 & N2 & L1 & L2).
        assert (Hi' : i < length (g_nodes g)) by by eapply lookup_lt_Some.
        split_and!.
        * by rewrite P2.
        * by rewrite P1.
        * intros k. rewrite P2, L1. split.
          -- intros (c & Hc & Hs). exists (mv c). rewrite list_lookup_fmap, Hc. split; [done|]. cbn. by rewrite Hs.
          -- intros (c & Hc & Hs). rewrite list_lookup_fmap in Hc. destruct (g_conns g !! k) as [d|] eqn:Ed; [|done]. cbn in Hc.
             simplify_eq. cbn in Hs. exists d. split; [done|]. destruct (Hends _ _ Ed). by apply Hpos.
        * intros k. rewrite P1, L2. split.
          -- intros (c & Hc & Hs). exists (mv c). rewrite list_lookup_fmap, Hc. split; [done|]. cbn. by rewrite Hs.
          -- intros (c & Hc & Hs). rewrite list_lookup_fmap in Hc. destruct (g_conns g !! k) as [d|] eqn:Ed; [|done]. cbn in Hc.
             simplify_eq. cbn in Hs. exists d. split; [done|]. destruct (Hends _ _ Ed). by apply Hpos.
    - (* same content *)
      split_and!.
      + unfold node_numbers. cbn. by rewrite Hnum, Pn.
      + unfold node_numbers. cbn. by rewrite Hnum.
      + intros num a b e w. split.
        * intros (k & i & j & x & y & Hk & Hx & Nx & Hy & Ny). cbn in Hk, Hx, Hy.
          rewrite list_lookup_fmap in Hk. destruct (g_conns g !! k) as [d|] eqn:Ed; [|done]. cbn in Hk.
          destruct d as [dn ds dd df dw]. apply (inj Some) in Hk. unfold mv in Hk. cbn in Hk. injection Hk as <- <- <- <- <-. subst a b.
          destruct (wf_ends _ _ _ _ Hw _ _ Ed) as (p & x0 & y0 & _ & Hx0 & Hy0 & _). cbn in Hx0, Hy0.
          destruct (Hnode _ _ Hx0) as (x' & Hx' & Nx). destruct (Hnode _ _ Hy0) as (y' & Hy' & Ny). rewrite Hx in Hx'; apply (inj Some) in Hx'; subst x'; rewrite Hy in Hy'; apply (inj Some) in Hy'; subst y'.
          exists k, ds, dd, x0, y0. split_and!; try done; congruence.
        * intros (k & i & j & x & y & Hk & Hx & Nx & Hy & Ny).
          destruct (Hnode _ _ Hx) as (x' & Hx' & Nx'). destruct (Hnode _ _ Hy) as (y' & Hy' & Ny').
          exists k, (position i is_), (position j is_), x', y'. cbn. rewrite list_lookup_fmap, Hk. cbn. split_and!; [done|done| |done|]; congruence.
      + intros p n' Hp. cbn in Hp. destruct (Hback _ _ Hp) as (i & n & Hi & Hpi & Hn & Hfn & Hin').
        destruct (Hf n Hin') as (n2 & ins & outs & cs1 & cs2 & Hf2 & _ & _ & Ein & Eout & P1 & P2 & M1 & I1 & M2 & I2).
        rewrite Hfn in Hf2. simplify_eq. cbn [g_conns].
        assert (Hmv : forall ks (cs : list (conn W)), mapM (rd (g_conns g)) ks = Some cs -> mapM (rd (mv <$> g_conns g)) ks = Some (mv <$> cs)).
        { clear. induction ks as [|k ks IH]; intros cs H; [apply (inj Some) in H; by subst cs|].
          apply mapM_cons_inv in H as (c & cs' & Ec & Ecs & ->). cbn.
          assert (Ec' : rd (mv <$> g_conns g) k = Some (mv c)) by (unfold rd in *; by rewrite list_lookup_fmap, Ec).
          rewrite Ec'. cbn. by rewrite (IH _ Ecs). }
        exists (mv <$> cs1), (mv <$> cs2). split_and!; [by apply Hmv| |by apply Hmv|]; by rewrite <- list_fmap_compose.
    - intros Hb. cbn. apply list.Forall_forall. intros n' Hn'. apply elem_of_list_lookup in Hn' as [p Hp].
      destruct (Hback _ _ Hp) as (i & n & _ & _ & Hn & Hfn & Hin').
      destruct (Hf n Hin') as (n2 & ? & ? & ? & ? & Hf2 & _ & Hbias & _). rewrite Hfn in Hf2. simplify_eq.
      rewrite Hbias. rewrite list.Forall_forall in Hb. by apply Hb.
  Qed.
End tidy.
