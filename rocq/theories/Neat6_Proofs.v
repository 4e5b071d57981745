From Verif Require Import Base BaseLemmas Shuffle_Model Shuffle_Spec Shuffle_Proofs Neat_Model Neat_Spec Neat_Proofs Tidy_Proofs Neat2_Proofs Neat3_Proofs Neat4_Proofs Neat5_Proofs.
Open Scope nat_scope.

Section proofs.
  Context {W : Type} (one : W).
  Implicit Types g h : genome W.

  (** ** No call writes the bias flags *)

  Definition unbiased g : Prop := Forall (fun n => n_bias n = None) (g_nodes g).

  Lemma wr_Forall {A} (P : A -> Prop) l i v l' : wr l i v = Some l' -> Forall P l -> P v -> Forall P l'.
  Proof.
    intros H Hl Hv. apply wr_inv in H as [_ ->]. by apply Forall_insert.
  Qed.

  Lemma rd_Forall {A} (P : A -> Prop) l i v : rd l i = Some v -> Forall P l -> P v.
  Proof. intros H Hl. unfold rd in H. by eapply Forall_lookup_1. Qed.

  Lemma attach_unbiased g n i j b w g' : attach g n i j b w = Some g' -> unbiased g -> unbiased g'.
  Proof.
    unfold attach, unbiased. intros H Hg. cbv zeta in H.
    apply bind_Some in H as (ni & E1 & H). apply bind_Some in H as (ns & E2 & H).
    apply bind_Some in H as (nj & E3 & H). apply bind_Some in H as (ns' & E4 & H).
    apply (inj Some) in H. subst g'. cbn.
    assert (Forall (fun n => n_bias n = None) ns).
    { eapply wr_Forall; [done..|]. cbn. exact (rd_Forall _ _ _ _ E1 Hg). }
    eapply wr_Forall; [done..|]. cbn. exact (rd_Forall _ _ _ _ E3 H).
  Qed.

  Lemma upd_unbiased g k f g' : upd_conn g k f = Some g' -> unbiased g -> unbiased g'.
  Proof.
    unfold upd_conn, unbiased. intros H Hg.
    apply bind_Some in H as (c & _ & H). apply bind_Some in H as (cs & _ & H).
    apply (inj Some) in H. by subst g'.
  Qed.

  Lemma each_pres {A S} (f : S -> A -> option S) (P : S -> Prop) l : forall s s',
    (forall s x s', f s x = Some s' -> P s -> P s') -> each f l s = Some s' -> P s -> P s'.
  Proof.
    induction l as [|x l IH]; intros s s' Hf H Hs; cbn in H.
    - by simplify_eq.
    - apply bind_Some in H as (s1 & E & H). eapply IH; [done..|]. by eapply Hf.
  Qed.

  Lemma for_loop_pres {S} (P : S -> Prop) body cnt : forall i (s s' : S),
    (forall i s s', body i s = Some s' -> P s -> P s') -> for_loop cnt i body s = Some s' -> P s -> P s'.
  Proof.
    induction cnt as [|cnt IH]; intros i s s' Hb H Hs; cbn in H.
    - by simplify_eq.
    - apply bind_Some in H as (s1 & E & H). eapply IH; [done..|]. by eapply Hb.
  Qed.

  Lemma init_unbiased ip op : unbiased (init_genome ip op).
  Proof.
    unfold unbiased, init_genome. cbn. apply list.Forall_forall. intros n Hn.
    by apply elem_of_list_fmap in Hn as (i & -> & _).
  Qed.

  Lemma copy_unbiased g g' : copy_genome g = Some g' -> unbiased g'.
  Proof.
    unfold copy_genome, unbiased. intros H. apply bind_Some in H as (s & _ & H).
    apply bind_Some in H as (r & _ & H). apply bind_Some in H as (cs & _ & H).
    apply (inj Some) in H. subst g'. cbn. generalize (zip s.2 r.2). clear.
    induction (g_nodes g) as [|n ns IH]; intros [|io ios]; cbn; constructor; [done|apply IH].
  Qed.

  Lemma split_unbiased rmax rand G g r :
    split_random_connection one rmax rand G g = Some r -> unbiased g -> unbiased (snd r).
  Proof.
    unfold split_random_connection. intros H Hg. cbv zeta in H.
    apply bind_Some in H as (temp & _ & H). case_decide; [done|].
    apply bind_Some in H as ([[i0 k]|] & _ & H); [|by simplify_eq].
    apply bind_Some in H as (ni0 & _ & H). apply bind_Some in H as (ni & _ & H). apply bind_Some in H as (c & _ & H).
    apply bind_Some in H as (dst & _ & H). apply bind_Some in H as (p & _ & H). apply bind_Some in H as (s0 & _ & H).
    apply bind_Some in H as (G' & _ & H). apply bind_Some in H as (s & _ & H). apply bind_Some in H as (q & _ & H).
    apply bind_Some in H as ([[e1 e2]|] & _ & H); [|done].
    apply bind_Some in H as (g1 & E1 & H). apply bind_Some in H as (g3 & E3 & H). apply bind_Some in H as (g4 & E4 & H).
    apply (inj Some) in H. subst r. cbn. eapply attach_unbiased; [done|]. eapply attach_unbiased; [done|].
    pose proof (upd_unbiased _ _ _ _ E1 Hg) as H1. unfold unbiased, add_node in *. cbn. apply Forall_app.
    split; [done|]. by constructor.
  Qed.

  Lemma add_unbiased rmax rand1 rand2 w G g r :
    add_random_connection rmax rand1 rand2 w G g = Some r -> unbiased g -> unbiased (snd r).
  Proof.
    unfold add_random_connection. intros H Hg.
    apply bind_Some in H as (t & _ & H). apply bind_Some in H as (t1 & _ & H). apply bind_Some in H as (t2 & _ & H).
    apply bind_Some in H as (ks & _ & H). case_decide; [done|].
    apply bind_Some in H as ([k|i0 j0|] & _ & H).
    - apply bind_Some in H as (g' & E & H). simplify_eq. by eapply upd_unbiased.
    - apply bind_Some in H as (ni0 & _ & H). apply bind_Some in H as (nj0 & _ & H). cbv zeta in H.
      apply bind_Some in H as (ni & _ & H). apply bind_Some in H as (nj & _ & H).
      destruct (position_of _ _ _) as [z|].
      + apply bind_Some in H as (g' & E & H). simplify_eq. by eapply attach_unbiased.
      + apply bind_Some in H as (g' & E & H). simplify_eq. by eapply attach_unbiased.
    - by simplify_eq.
  Qed.

  Lemma flip_first_unbiased v g ks r : flip_first v g ks = Some r -> unbiased g -> unbiased (snd r).
  Proof.
    induction ks as [|k ks IH]; intros H Hg; cbn in H.
    - by simplify_eq.
    - apply bind_Some in H as (c & _ & H). case_decide; [|by apply IH].
      apply bind_Some in H as (g' & E & H). simplify_eq. by eapply upd_unbiased.
  Qed.

  Lemma flip_unbiased v rmax rand g nc r :
    flip_random_connection v rmax rand g nc = Some r -> unbiased g -> unbiased (snd r).
  Proof.
    unfold flip_random_connection. intros H Hg. apply bind_Some in H as (c & _ & H).
    case_decide; [by simplify_eq|]. apply bind_Some in H as (c' & _ & H). by eapply flip_first_unbiased.
  Qed.

  Lemma activate_many_unbiased rmax rand coin g nc r :
    activate_connections rmax rand coin g nc = Some r -> unbiased g -> unbiased (snd r).
  Proof.
    unfold activate_connections. intros H Hg. apply bind_Some in H as (c & _ & H).
    case_decide; [by simplify_eq|]. apply bind_Some in H as (c' & _ & H).
    refine (for_loop_pres (fun s => unbiased (snd s)) _ _ _ _ _ _ H Hg).
    intros i [fl h] s' E Hh. apply bind_Some in E as (k & _ & E). apply bind_Some in E as (x & _ & E).
    destruct (c_flag x); [by simplify_eq|]. destruct (coin i); [|by simplify_eq].
    apply bind_Some in E as (g' & E' & E). simplify_eq. by eapply upd_unbiased.
  Qed.

  Lemma weights_unbiased g nc f g' : connections_mutation g nc f = Some g' -> unbiased g -> unbiased g'.
  Proof.
    unfold connections_mutation. intros H Hg. apply bind_Some in H as (c & _ & H).
    refine (for_loop_pres unbiased _ _ _ _ _ _ H Hg). intros i h s' E Hh.
    apply bind_Some in E as (k & _ & E). by eapply upd_unbiased.
  Qed.

  Lemma inherit_unbiased coin g2 k1 l : forall j h h', inherit coin g2 k1 j l h = Some h' -> unbiased h -> unbiased h'.
  Proof.
    induction l as [|k2 l IH]; intros j h h' H Hh; cbn in H.
    - by simplify_eq.
    - apply bind_Some in H as (d & _ & H). apply bind_Some in H as (c & _ & H).
      case_decide; [|by eapply IH]. destruct (coin j); [by eapply upd_unbiased|by eapply IH].
  Qed.

  Lemma cross_unbiased coin g g2 nc nn g' : crossover coin g g2 nc nn = Some g' -> unbiased g'.
  Proof.
    unfold crossover. intros H. apply bind_Some in H as (g1 & E1 & H). apply copy_unbiased in E1.
    apply bind_Some in H as (c1 & _ & H). apply bind_Some in H as (c2 & _ & H). cbv zeta in H.
    case_decide; [|done]. apply bind_Some in H as (h & Eh & H).
    assert (Hh : unbiased h).
    { refine (each_pres _ unbiased _ _ _ _ Eh _).
      - intros s k s' E Hs. unfold cross_conn in E. apply bind_Some in E as (c & _ & E).
        apply bind_Some in E as ([|] & _ & E); [by simplify_eq|].
        apply bind_Some in E as (a & _ & E). apply bind_Some in E as (b & _ & E).
        apply bind_Some in E as (i & _ & E). apply bind_Some in E as (j & _ & E). by eapply attach_unbiased.
      - unfold unbiased. cbn. apply Forall_app. split; [done|]. unfold cross_nodes.
        apply list.Forall_forall. intros n Hn. by apply elem_of_list_fmap in Hn as (m & -> & _). }
    refine (for_loop_pres unbiased _ _ _ _ _ _ H Hh). intros i h0 s' E Hh0.
    apply bind_Some in E as (k1 & _ & E). by eapply inherit_unbiased.
  Qed.

  Lemma adjust_unbiased g g' : adjust_genome g = Some g' -> unbiased g -> unbiased g'.
  Proof.
    unfold adjust_genome, unbiased. intros H Hg. apply bind_Some in H as (is_ & _ & H).
    apply bind_Some in H as (ns & E1 & H). apply bind_Some in H as (ns' & E2 & H).
    apply (inj Some) in H. subst g'. cbn.
    assert (H1 : Forall (fun n => n_bias n = None) ns).
    { clear E2. revert ns E1. induction is_ as [|i is_ IH]; intros ns E1.
      - apply (inj Some) in E1. by subst ns.
      - apply mapM_cons_inv in E1 as (b & k & Eb & Ek & ->).
        constructor; [exact (rd_Forall _ _ _ _ Eb Hg)|]. by apply IH. }
    clear E1 Hg. revert ns' E2 H1. induction ns as [|n ns IH]; intros ns' E2 H1.
    - apply (inj Some) in E2. by subst ns'.
    - apply mapM_cons_inv in E2 as (b & k & Eb & Ek & ->). apply list.Forall_cons in H1 as [Hn H1].
      apply bind_Some in Eb as (x & _ & Eb). apply bind_Some in Eb as (y & _ & Eb). apply (inj Some) in Eb. subst b.
      constructor; [done|]. by apply IH.
  Qed.

  Lemma perform_unbiased ip op P o P' :
    perform one ip op P o = Some P' -> Forall unbiased (snd P) -> Forall unbiased (snd P').
  Proof.
    destruct P as [G l]. cbn [snd]. intros H Hl.
    assert (Hget : forall m g, l !! m = Some g -> unbiased g) by (intros; by eapply Forall_lookup_1).
    destruct o as [|m|m|m rmax rand|m rmax rand1 rand2 w|m rmax rand|m rmax rand|m rmax rand coin|m f|m m' coin|m];
      cbn [perform] in H; try (destruct (l !! m) as [g|] eqn:Em; [|by simplify_eq]).
    - simplify_eq. cbn. apply Forall_app. split; [done|]. constructor; [apply init_unbiased|done].
    - apply bind_Some in H as (g' & E & H). simplify_eq. cbn. apply Forall_app. split; [done|].
      constructor; [by eapply copy_unbiased|done].
    - apply bind_Some in H as (g' & E & H). simplify_eq. cbn. by apply Forall_delete.
    - apply bind_Some in H as (r & E & H). simplify_eq. cbn. apply Forall_insert; [done|]. eapply split_unbiased; eauto.
    - apply bind_Some in H as (r & E & H). simplify_eq. cbn. apply Forall_insert; [done|]. eapply add_unbiased; eauto.
    - apply bind_Some in H as (r & E & H). simplify_eq. cbn. apply Forall_insert; [done|]. eapply flip_unbiased; eauto.
    - apply bind_Some in H as (r & E & H). simplify_eq. cbn. apply Forall_insert; [done|]. eapply flip_unbiased; eauto.
    - apply bind_Some in H as (r & E & H). simplify_eq. cbn. apply Forall_insert; [done|]. eapply activate_many_unbiased; eauto.
    - apply bind_Some in H as (g' & E & H). simplify_eq. cbn. apply Forall_insert; [done|]. eapply weights_unbiased; eauto.
    - destruct (l !! m') as [g2|] eqn:Em'; [|by simplify_eq].
      apply bind_Some in H as (g' & E & H). simplify_eq. cbn. apply Forall_app. split; [done|].
      constructor; [by eapply cross_unbiased|done].
    - apply bind_Some in H as (g' & E & H). simplify_eq. cbn. apply Forall_insert; [done|]. eapply adjust_unbiased; eauto.
  Qed.

  Lemma history_unbiased ip op os : forall P P',
    history one ip op P os = Some P' -> Forall unbiased (snd P) -> Forall unbiased (snd P').
  Proof.
    induction os as [|o os IH]; intros P P' H Hl; cbn in H.
    - by simplify_eq.
    - apply bind_Some in H as (P1 & E & H). eapply IH; [done|]. by eapply perform_unbiased.
  Qed.

  Lemma activate_bias_ok rmax rand g :
    rand_ok rmax rand -> g_nodes g <> [] -> unbiased g -> activate_bias rmax rand g = None.
  Proof.
    intros Hr Hne Hg. unfold activate_bias. cbv zeta.
    destruct (shuffle_some rmax rand (seq 0 (length (g_nodes g))) Hr) as (temp & Et & Pt).
    rewrite seq_length in Et. rewrite Et. cbn [mbind option_bind].
    destruct temp as [|i temp].
    - apply Permutation_length in Pt. rewrite seq_length in Pt. destruct (g_nodes g); [done|]. cbn in Pt. lia.
    - assert (Hi : i < length (g_nodes g)).
      { assert (Hin : i ∈ i :: temp) by left. rewrite Pt in Hin. apply elem_of_seq in Hin. lia. }
      destruct (lookup_lt_is_Some_2 _ _ Hi) as [n Hn]. rewrite (rd_lookup (g_nodes g) i), Hn. cbn [mbind option_bind].
      by rewrite (Forall_lookup_1 _ _ _ _ Hg Hn).
  Qed.

  (** ** Reachable populations *)

  Lemma reachable_ok ip op P :
    1 <= ip -> 1 <= op -> reachable one ip op P -> sound ip op P /\ Forall unbiased (snd P).
  Proof.
    intros Hip Hop (os & Hos & E).
    destruct (history_ok one ip op os (init_globals ip op, []) Hip Hop) as (P' & E' & _ & Hs).
    - split; [apply consistent_init|constructor].
    - done.
    - rewrite E in E'. simplify_eq. split; [done|]. eapply history_unbiased; [done|]. constructor.
  Qed.

  Lemma reachable_genome ip op G l m g :
    1 <= ip -> 1 <= op -> reachable one ip op (G, l) -> l !! m = Some g ->
    consistent ip op G /\ well_formed ip op G g /\ unbiased g.
  Proof.
    intros Hip Hop Hr Hm. destruct (reachable_ok ip op _ Hip Hop Hr) as [[HG Hl] Hu]. cbn in *.
    split; [done|]. split; [|by eapply Forall_lookup_1].
    exact (Forall_lookup_1 _ _ _ _ Hl Hm).
  Qed.

  Lemma gene_pair ip op G g num a b e w :
    well_formed ip op G g -> has_gene g num a b e w -> gl_mconns G !! (num - 1) = Some (a, b) /\ 1 <= num.
  Proof.
    intros Hwf H. destruct (has_gene_number _ _ _ _ _ _ _ _ _ Hwf H) as (p & -> & Hp & _).
    cbn. rewrite Nat.sub_0_r. split; [done|lia].
  Qed.

  Lemma numbers_ok ip op G g g' num a b e w num' a' b' e' w' :
    consistent ip op G -> well_formed ip op G g -> well_formed ip op G g' ->
    has_gene g num a b e w -> has_gene g' num' a' b' e' w' ->
    num = num' <-> a = a' /\ b = b'.
  Proof.
    intros HG H1 H2 E1 E2. destruct (gene_pair _ _ _ _ _ _ _ _ _ H1 E1) as [P1 L1].
    destruct (gene_pair _ _ _ _ _ _ _ _ _ H2 E2) as [P2 L2]. split.
    - intros <-. rewrite P1 in P2. by simplify_eq.
    - intros [<- <-]. pose proof (NoDup_lookup _ _ _ _ (co_unique _ _ _ HG) P1 P2). lia.
  Qed.

  (** the number of the disabled connection and the number of the new node of a split *)
  Lemma split_facts ip op G G' g g' num a b w :
    consistent ip op G' -> well_formed ip op G g -> well_formed ip op G' g' ->
    split_effect one G G' g g' ->
    has_gene g num a b true w -> has_gene g' num a b false w ->
    exists s e1 e2, gl_dict G' !! (num - 1) = Some s /\ s ∉ node_numbers g /\
      node_numbers g' = node_numbers g ++ [s] /\ 
      has_gene g' e1 a s true one /\ has_gene g' e2 s b true w /\
      gl_mconns G' !! (e1 - 1) = Some (a, s) /\ gl_mconns G' !! (e2 - 1) = Some (s, b) /\ 1 <= e1 /\ 1 <= e2.
  Proof.
    intros HG Hw Hw' (num0 & a0 & b0 & w0 & s & e1 & e2 & Hg & Hs & Hn & Hall & Hd & _) H1 H2.
    assert (num = num0).
    { apply Hall in H2 as [[Hne H2]|[(-> & _)|[(_ & _ & _ & ? & _)|(_ & _ & _ & ? & _)]]]; try done.
      by destruct (has_gene_unique _ _ _ _ _ _ _ _ _ _ _ _ _ Hw H1 H2) as (_ & _ & ? & _). }
    subst num0. destruct (has_gene_unique _ _ _ _ _ _ _ _ _ _ _ _ _ Hw H1 Hg) as (<- & <- & _ & <-).
    assert (A1 : has_gene g' e1 a s true one) by (apply Hall; right; right; by left).
    assert (A2 : has_gene g' e2 s b true w) by (apply Hall; right; right; by right).
    destruct (gene_pair _ _ _ _ _ _ _ _ _ Hw' A1) as [P1 L1]. destruct (gene_pair _ _ _ _ _ _ _ _ _ Hw' A2) as [P2 L2].
    by exists s, e1, e2.
  Qed.

  Lemma same_split ip op G1 g1 G1' g1' G2 g2 G2' g2' num a b w1 w2 :
    well_formed ip op G1 g1 -> consistent ip op G1' -> well_formed ip op G1' g1' ->
    split_effect one G1 G1' g1 g1' ->
    extends G1' G2 -> well_formed ip op G2 g2 ->
    consistent ip op G2' -> extends G2 G2' -> well_formed ip op G2' g2' ->
    split_effect one G2 G2' g2 g2' ->
    has_gene g1 num a b true w1 -> has_gene g1' num a b false w1 ->
    has_gene g2 num a b true w2 -> has_gene g2' num a b false w2 ->
    exists s e1 e2, s ∉ node_numbers g1 /\ s ∉ node_numbers g2 /\
      node_numbers g1' = node_numbers g1 ++ [s] /\ node_numbers g2' = node_numbers g2 ++ [s] /\
      has_gene g1' e1 a s true one /\ has_gene g1' e2 s b true w1 /\
      has_gene g2' e1 a s true one /\ has_gene g2' e2 s b true w2.
  Proof.
    intros Hw1 HG1 Hw1' Hsp1 Hext Hw2 HG2' Hext2 Hw2' Hsp2 H1 H1' H2 H2'.
    destruct (split_facts ip op _ _ _ _ num a b w1 HG1 Hw1 Hw1' Hsp1 H1 H1') as (s & e1 & e2 & D1 & S1 & N1 & A1 & A2 & M1 & M2 & L1 & L2).
    destruct (split_facts ip op _ _ _ _ num a b w2 HG2' Hw2 Hw2' Hsp2 H2 H2') as (t & f1 & f2 & D2 & S2 & N2 & B1 & B2 & M3 & M4 & L3 & L4).
    assert (Hs0 : s <> 0).
    { assert (Hin : s ∈ node_numbers g1') by (rewrite N1; apply elem_of_app; right; left).
      pose proof (wf_range _ _ _ _ Hw1' _ Hin). lia. }
    assert (t = s).
    { assert (E : gl_dict G2' !! (num - 1) = Some s).
      { apply Hext2; [|done]. by apply Hext. }
      rewrite E in D2. by simplify_eq. }
    subst t.
    destruct (extends_trans _ _ _ Hext Hext2) as (_ & [tl Et] & _).
    assert (Q1 : gl_mconns G2' !! (e1 - 1) = Some (a, s)) by (rewrite Et; by apply lookup_app_l_Some).
    assert (Q2 : gl_mconns G2' !! (e2 - 1) = Some (s, b)) by (rewrite Et; by apply lookup_app_l_Some).
    pose proof (NoDup_lookup _ _ _ _ (co_unique _ _ _ HG2') Q1 M3).
    pose proof (NoDup_lookup _ _ _ _ (co_unique _ _ _ HG2') Q2 M4).
    assert (f1 = e1) by lia. assert (f2 = e2) by lia. subst f1 f2. by exists s, e1, e2.
  Qed.
End proofs.
