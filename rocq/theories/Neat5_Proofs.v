From Verif Require Import Base BaseLemmas Shuffle_Model Shuffle_Spec Shuffle_Proofs Neat_Model Neat_Spec Neat_Proofs Tidy_Proofs Neat2_Proofs Neat3_Proofs Neat4_Proofs.
Open Scope nat_scope.

Section proofs.
  Context {W : Type} (one : W).
  Implicit Types g h : genome W.

  (** ** Crossover *)

  Definition genes_of g : list nat := c_inn <$> g_conns g.

  Lemma gene_iff ip op G g q :
    well_formed ip op G g -> q ∈ genes_of g <-> exists a b e w, has_gene g q a b e w.
  Proof.
    intros Hwf. unfold genes_of. rewrite elem_of_list_fmap. split.
    - intros (c & -> & Hc). apply elem_of_list_lookup in Hc as [k Hk].
      destruct (wf_ends _ _ _ _ Hwf _ _ Hk) as (p & x & y & Ep & Hx & Hy & Hm).
      pose proof (has_gene_intro g k c x y Hk Hx Hy). eauto.
    - intros (a & b & e & w & k & i & j & x & y & Hk & _). exists (mkConn q i j e w). split; [done|].
      by eapply elem_of_list_lookup_2.
  Qed.

  Lemma wf_add_nodes ip op G ss : forall g,
    well_formed ip op G g -> NoDup ss -> (forall s, s ∈ ss -> s ∉ node_numbers g /\ 1 <= s <= gl_nodes G) ->
    let g' := mkGenome (g_nodes g ++ ((fun s => mkNode s [] [] None) <$> ss)) (g_conns g) (g_input g) (g_output g) in
    well_formed ip op G g' /\ node_numbers g' = node_numbers g ++ ss /\
    (forall num a b e w, has_gene g' num a b e w <-> has_gene g num a b e w).
  Proof.
    induction ss as [|s ss IH]; intros g Hwf Hnd Hs; cbv zeta.
    - cbn. rewrite app_nil_r. destruct g as [ns cs i o]. split; [done|]. split; [|done]. by rewrite app_nil_r.
    - apply list.NoDup_cons in Hnd as [Hns Hnd]. destruct (Hs s ltac:(left)) as [H1 H2].
      pose proof (wf_add_node ip op G g s Hwf H1 H2) as Hwf1.
      destruct (IH (add_node g s) Hwf1 Hnd) as (W1 & N1 & G1).
      { intros s' Hs'. destruct (Hs s' ltac:(by right)) as [H3 H4]. split; [|done].
        unfold node_numbers, add_node. cbn. rewrite fmap_app, elem_of_app. cbn. rewrite elem_of_list_singleton.
        intros [?| ->]; done. }
      cbn in W1, N1, G1. rewrite <- app_assoc in W1, N1, G1. cbn in W1, N1, G1.
      split; [exact W1|]. split.
      + unfold node_numbers in *. cbn in *. rewrite N1. rewrite fmap_app. cbn. by rewrite <- app_assoc.
      + intros. rewrite G1. by apply (has_gene_add_node ip op G).
  Qed.

  Lemma index_of_lt inn (l : list nd) : index_of inn l < length l <-> inn ∈ n_inn <$> l.
  Proof.
    induction l as [|n l IH]; cbn.
    - split; [lia|]. intros H. by apply elem_of_nil in H.
    - rewrite elem_of_cons. destruct (decide (n_inn n = inn)) as [<-|Hne].
      + split; [by left|lia].
      + rewrite <- Nat.succ_lt_mono, IH. split; [by right|]. intros [?|?]; [congruence|done].
  Qed.

  Lemma index_of_at inn (l : list nd) :
    inn ∈ n_inn <$> l -> exists n, l !! index_of inn l = Some n /\ n_inn n = inn.
  Proof.
    induction l as [|n l IH]; cbn.
    - intros H. by apply elem_of_nil in H.
    - rewrite elem_of_cons. destruct (decide (n_inn n = inn)) as [<-|Hne].
      + intros _. by exists n.
      + intros [?|H]; [congruence|]. by apply IH.
  Qed.

  Lemma locate_ok n1 (ns : list nd) inn :
    n1 <= length ns -> inn ∈ n_inn <$> ns ->
    exists j n, locate n1 ns inn = Some j /\ ns !! j = Some n /\ n_inn n = inn.
  Proof.
    intros Hn Hin. unfold locate.
    rewrite <- (take_drop n1 ns), fmap_app, elem_of_app in Hin.
    assert (Hlt : length (take n1 ns) = n1) by (rewrite take_length; lia).
    destruct (decide (index_of inn (take n1 ns) < n1)) as [Hi|Hi].
    - rewrite <- Hlt in Hi at 2. pose proof Hi as Hi'. apply index_of_lt in Hi'.
      destruct (index_of_at _ _ Hi') as (n & Hl & E).
      assert (Hl2 : ns !! index_of inn (take n1 ns) = Some n).
      { rewrite lookup_take in Hl by lia. done. }
      rewrite decide_True by (by eapply lookup_lt_Some). by exists (index_of inn (take n1 ns)), n.
    - destruct Hin as [Hin|Hin]; [apply index_of_lt in Hin; lia|].
      destruct (index_of_at _ _ Hin) as (n & Hl & E). rewrite lookup_drop in Hl.
      rewrite decide_True by (by eapply lookup_lt_Some). by exists (n1 + index_of inn (drop n1 ns)), n.
  Qed.

  Lemma shared_ok g c1 q :
    c1 ≡ₚ seq 0 (length (g_conns g)) -> shared g c1 q = Some (bool_decide (q ∈ genes_of g)).
  Proof.
    intros Hp. unfold shared.
    assert (Hm : exists old, mapM (rd (g_conns g)) c1 = Some old /\
                   forall d, d ∈ old <-> d ∈ g_conns g).
    { assert (Hl : forall k, k ∈ c1 -> k < length (g_conns g)).
      { intros k Hk. rewrite Hp in Hk. apply elem_of_seq in Hk. lia. }
      assert (Hex : exists old, mapM (rd (g_conns g)) c1 = Some old).
      { clear Hp. induction c1 as [|k c1 IH]; [by exists []|].
        destruct (lookup_lt_is_Some_2 _ _ (Hl k ltac:(left))) as [c Hc].
        destruct IH as [old Eo]. { intros k' Hk'. apply Hl. by right. }
        exists (c :: old). apply mapM_Some. constructor; [done|]. by apply mapM_Some in Eo. }
      destruct Hex as [old Eo]. exists old. split; [done|]. apply mapM_Some in Eo. intros d. split.
      - intros Hd. apply elem_of_list_lookup in Hd as [u Hu].
        destruct (Forall2_lookup_r _ _ _ _ _ Eo Hu) as (k & _ & Ek). by eapply elem_of_list_lookup_2.
      - intros Hd. apply elem_of_list_lookup in Hd as [k Hk].
        assert (Hin : k ∈ c1). { rewrite Hp. apply elem_of_seq. apply lookup_lt_Some in Hk. lia. }
        apply elem_of_list_lookup in Hin as [u Hu].
        destruct (Forall2_lookup_l _ _ _ _ _ Eo Hu) as (d' & Hd' & Ek). unfold rd in Ek.
        rewrite Hk in Ek. simplify_eq. by eapply elem_of_list_lookup_2. }
    destruct Hm as (old & -> & Hold). cbn. f_equal. apply bool_decide_ext.
    rewrite list.Exists_exists. unfold genes_of. rewrite elem_of_list_fmap. split.
    - intros (d & Hd & <-). exists d. split; [done|]. by apply Hold.
    - intros (d & -> & Hd). exists d. split; [|done]. by apply Hold.
  Qed.

  (** adding the connections of the second parent *)
  Lemma cross_conns_ok ip op G g1 g2 h0 c1 c2 :
    well_formed ip op G g1 -> well_formed ip op G g2 -> well_formed ip op G h0 ->
    c1 ≡ₚ seq 0 (length (g_conns g1)) -> c2 ≡ₚ seq 0 (length (g_conns g2)) ->
    g_conns h0 = g_conns g1 -> length (g_nodes g1) <= length (g_nodes h0) ->
    (forall num a b e w, has_gene h0 num a b e w <-> has_gene g1 num a b e w) ->
    (forall s, s ∈ node_numbers g2 -> s ∈ node_numbers h0) ->
    exists h, each (cross_conn g1 g2 c1) c2 h0 = Some h /\ well_formed ip op G h /\
      node_numbers h = node_numbers h0 /\ (exists t, g_conns h = g_conns g1 ++ t) /\
      (forall num a b e w, has_gene h num a b e w <->
         has_gene g1 num a b e w \/ (num ∉ genes_of g1 /\ has_gene g2 num a b e w)).
  Proof.
    intros Hw1 Hw2 Hwh P1 P2 Ec Hlen Hg0 Hsub.
    assert (Hnd2 : NoDup c2) by (rewrite P2; apply NoDup_seq).
    destruct (each_some (cross_conn g1 g2 c1) (fun u h => well_formed ip op G h /\
       node_numbers h = node_numbers h0 /\ (exists t, g_conns h = g_conns g1 ++ t) /\
       forall num a b e w, has_gene h num a b e w <->
         has_gene g1 num a b e w \/
         (num ∉ genes_of g1 /\ has_gene g2 num a b e w /\
          exists k c, k ∈ u /\ g_conns g2 !! k = Some c /\ c_inn c = num)) c2 h0)
      as (h & E & W1 & N1 & T1 & G1).
    - split; [done|]. split; [done|]. split; [exists []; by rewrite app_nil_r|].
      intros. rewrite Hg0. split; [by left|]. intros [?|(_ & _ & k & c & Hk & _)]; [done|by apply elem_of_nil in Hk].
    - intros u k v h Eu (W1 & N1 & [t T1] & G1).
      assert (Hkc : k ∈ c2). { rewrite Eu. apply elem_of_app. right. left. }
      assert (Hku : k ∉ u). { rewrite Eu in Hnd2. apply NoDup_app in Hnd2 as (_ & Hd & _). intros Hin. apply (Hd k Hin). left. }
      rewrite P2 in Hkc. apply elem_of_seq in Hkc as [_ Hkl]. cbn in Hkl.
      destruct (lookup_lt_is_Some_2 _ _ Hkl) as [c Hc]. unfold cross_conn. rewrite (rd_lookup (g_conns g2)), Hc.
      cbn [mbind option_bind]. rewrite (shared_ok g1 c1) by done. cbn [mbind option_bind].
      assert (Hext : forall num, (exists k' c', k' ∈ u ++ [k] /\ g_conns g2 !! k' = Some c' /\ c_inn c' = num) <->
                (exists k' c', k' ∈ u /\ g_conns g2 !! k' = Some c' /\ c_inn c' = num) \/ num = c_inn c).
      { intros num. split.
        - intros (k' & c' & Hk' & Hc' & En). apply elem_of_app in Hk' as [Hk'|Hk'].
          + left. by exists k', c'.
          + apply elem_of_list_singleton in Hk'. subst k'. right. congruence.
        - intros [(k' & c' & ? & ?)| ->].
          + exists k', c'. split; [|done]. apply elem_of_app. by left.
          + exists k, c. split; [|done]. apply elem_of_app. right. by apply elem_of_list_singleton. }
      case (bool_decide_reflect (c_inn c ∈ genes_of g1)) as [Hin|Hnin].
      + exists h. split; [done|]. split; [done|]. split; [done|]. split; [by exists t|].
        intros num a b e w. rewrite G1, Hext. split.
        * intros [?|(? & ? & ?)]; [by left|]. right. split; [done|]. split; [done|]. by left.
        * intros [?|(Hn & ? & [?| ->])]; [by left| |done]. right. done.
      + destruct (wf_ends _ _ _ _ Hw2 _ _ Hc) as (p & x & y & Ep & Hx & Hy & Hm).
        rewrite (rd_lookup (g_nodes g2) (c_src c)), Hx. cbn [mbind option_bind].
        rewrite (rd_lookup (g_nodes g2) (c_dst c)), Hy. cbn [mbind option_bind].
        assert (Hlen2 : length (g_nodes g1) <= length (g_nodes h)).
        { assert (El : length (node_numbers h) = length (node_numbers h0)) by (by rewrite N1).
          unfold node_numbers in El. rewrite !fmap_length in El. lia. }
        assert (Hinx : n_inn x ∈ n_inn <$> g_nodes h).
        { change (n_inn x ∈ node_numbers h). rewrite N1. apply Hsub. apply elem_of_list_fmap. exists x.
          split; [done|]. by eapply elem_of_list_lookup_2. }
        assert (Hiny : n_inn y ∈ n_inn <$> g_nodes h).
        { change (n_inn y ∈ node_numbers h). rewrite N1. apply Hsub. apply elem_of_list_fmap. exists y.
          split; [done|]. by eapply elem_of_list_lookup_2. }
        destruct (locate_ok _ _ _ Hlen2 Hinx) as (i & x' & Ei & Hx' & Ex). rewrite Ei. cbn [mbind option_bind].
        destruct (locate_ok _ _ _ Hlen2 Hiny) as (j & y' & Ej & Hy' & Ey). rewrite Ej. cbn [mbind option_bind].
        rewrite Ep. rewrite <- Ex, <- Ey in Hm.
        assert (Hg2 : has_gene g2 (S p) (n_inn x) (n_inn y) (c_flag c) (c_weight c)).
        { rewrite <- Ep. by eapply has_gene_intro. }
        destruct (attach_ok ip op G h p i j x' y' (c_flag c) (c_weight c) W1 Hx' Hy' Hm)
          as (h' & E' & W2 & N2 & I2 & [t2 T2] & G2).
        { intros Hin. apply (gene_iff ip op G h (S p) W1) in Hin as (a & b & e & w & Hg).
          apply G1 in Hg as [Hg|(_ & _ & k' & c' & Hk' & Hc' & Ec')].
          - apply Hnin. rewrite Ep. apply (gene_iff ip op G g1); [done|]. eauto.
          - rewrite <- Ep in Ec'. destruct (gene_inj _ _ _ _ _ _ _ _ Hw2 Hc' Hc Ec') as [-> _]. done. }
        exists h'. split; [done|]. split; [done|]. split; [congruence|].
        split; [exists (t ++ t2); by rewrite T2, T1, app_assoc|].
        intros num a b e w. rewrite G2, G1, Hext, Ep, Ex, Ey. split.
        * intros [[?|(? & ? & ?)]|(-> & -> & -> & -> & ->)].
          -- by left.
          -- right. split; [done|]. split; [done|]. by left.
          -- right. split; [by rewrite <- Ep|]. split; [done|]. by right.
        * intros [?|(Hn & Hg & [?| ->])].
          -- left. by left.
          -- left. right. done.
          -- right. destruct (has_gene_unique _ _ _ _ _ _ _ _ _ _ _ _ _ Hw2 Hg Hg2) as (-> & -> & -> & ->). done.
    - exists h. split; [done|]. split; [done|]. split; [done|]. split; [done|].
      intros num a b e w. rewrite G1. split.
      + intros [?|(? & ? & _)]; [by left|by right].
      + intros [?|(Hn & Hg)]; [by left|]. right. split; [done|]. split; [done|].
        destruct Hg as (k & i & j & x & y & Hk & _). exists k, (mkConn num i j e w). split; [|done].
        rewrite P2. apply elem_of_seq. apply lookup_lt_Some in Hk. lia.
  Qed.

  (** the values that a matching connection inherits *)
  Definition give (d c : conn W) : conn W := set_flag (c_flag d) (set_weight (fun _ => c_weight d) c).

  Lemma inherit_ok coin g2 k1 h c l : forall j,
    g_conns h !! k1 = Some c -> (forall k, k ∈ l -> k < length (g_conns g2)) ->
    exists r, inherit coin g2 k1 j l h = (match r with None => Some h | Some d => upd_conn h k1 (give d) end) /\
      match r with
      | Some d => exists u k2, l !! u = Some k2 /\ g_conns g2 !! k2 = Some d /\ c_inn d = c_inn c /\ coin (j + u) = true
      | None => forall u k2 d, l !! u = Some k2 -> g_conns g2 !! k2 = Some d -> c_inn d = c_inn c -> coin (j + u) = false
      end.
  Proof.
    intros j Hc. revert j. induction l as [|k2 l IH]; intros j Hl.
    - exists None. split; [done|]. intros u k2 d H. by rewrite lookup_nil in H.
    - destruct (lookup_lt_is_Some_2 _ _ (Hl k2 ltac:(left))) as [d Hd].
      cbn [inherit]. rewrite (rd_lookup (g_conns g2)), Hd. cbn [mbind option_bind].
      rewrite (rd_lookup (g_conns h)), Hc. cbn [mbind option_bind].
      destruct (IH (S j)) as (r & Er & Hr). { intros k Hk. apply Hl. by right. }
      assert (Hpass : (c_inn d = c_inn c -> coin j = false) ->
                match r with
                | Some d => exists u k3, (k2 :: l) !! u = Some k3 /\ g_conns g2 !! k3 = Some d /\ c_inn d = c_inn c /\ coin (j + u) = true
                | None => forall u k3 d, (k2 :: l) !! u = Some k3 -> g_conns g2 !! k3 = Some d -> c_inn d = c_inn c -> coin (j + u) = false
                end).
      { intros Hj. destruct r as [d'|].
        - destruct Hr as (u & k3 & ? & ? & ? & ?). exists (S u), k3. split; [done|]. split; [done|]. split; [done|].
          by replace (j + S u) with (S j + u) by lia.
        - intros [|u] k3 d' Hu Hd' E; cbn in Hu.
          + simplify_eq. rewrite Nat.add_0_r. by apply Hj.
          + replace (j + S u) with (S j + u) by lia. by eapply Hr. }
      destruct (decide (c_inn d = c_inn c)) as [E|E].
      + destruct (coin j) eqn:Ej.
        * exists (Some d). split; [done|]. exists 0, k2. rewrite Nat.add_0_r. done.
        * exists r. split; [done|]. by apply Hpass.
      + exists r. split; [done|]. by apply Hpass.
  Qed.

  Definition position_in g (l : list nat) (num : nat) : nat :=
    match list_find (fun k => c_inn <$> g_conns g !! k = Some num) l with
    | Some (j, _) => j | None => 0 end.

  Lemma position_in_ok ip op G g l j k c :
    well_formed ip op G g -> NoDup l -> l !! j = Some k -> g_conns g !! k = Some c ->
    position_in g l (c_inn c) = j.
  Proof.
    intros Hwf Hnd Hj Hk. unfold position_in.
    assert (E : list_find (fun k => c_inn <$> g_conns g !! k = Some (c_inn c)) l = Some (j, k)).
    { apply list_find_Some. split; [done|]. split; [by rewrite Hk|].
      intros j' k' Hk' Hlt Heq. destruct (g_conns g !! k') as [c'|] eqn:Hc'; [|done]. cbn in Heq. simplify_eq.
      destruct (gene_inj _ _ _ _ _ _ _ _ Hwf Hc' Hk Heq) as [-> _].
      pose proof (NoDup_lookup l j' j k Hnd Hk' Hj). lia. }
    by rewrite E.
  Qed.

  Lemma crossover_ok ip op coin G g g2 :
    consistent ip op G -> well_formed ip op G g -> well_formed ip op G g2 ->
    exists child choose, crossover coin g g2 (gl_conns G) (gl_nodes G) = Some child /\
      well_formed ip op G child /\ (forall num, exists i j, choose num = coin i j) /\
      child_of choose g g2 child.
  Proof.
    intros HG Hwf Hw2. unfold crossover.
    destruct (copy_ok ip op G g Hwf) as (g1 & E1 & Hw1 & N1 & Ge1). rewrite E1. cbn [mbind option_bind].
    destruct (get_connections_ok ip op G g1 HG Hw1) as (c1 & Ec1 & P1). rewrite Ec1. cbn [mbind option_bind].
    destruct (get_connections_ok ip op G g2 HG Hw2) as (c2 & Ec2 & P2). rewrite Ec2. cbn [mbind option_bind]. cbv zeta.
    set (ss := n_inn <$> filter (fun n => Forall (fun m => n_inn m <> n_inn n) (g_nodes g1)) (g_nodes g2)).
    assert (Efresh : cross_nodes g1 g2 = (fun s => mkNode s [] [] None) <$> ss).
    { unfold cross_nodes, ss. by rewrite <- list_fmap_compose. }
    assert (Hss : forall s, s ∈ ss <-> s ∈ node_numbers g2 /\ s ∉ node_numbers g1).
    { intros s. unfold ss, node_numbers. rewrite !elem_of_list_fmap. split.
      - intros (n & -> & Hn). apply elem_of_list_filter in Hn as [Hf Hn]. split; [by exists n|].
        intros (m & Em & Hm). rewrite list.Forall_forall in Hf. by apply (Hf m Hm).
      - intros [(n & -> & Hn) Hno]. exists n. split; [done|]. apply elem_of_list_filter. split; [|done].
        apply list.Forall_forall. intros m Hm Em. apply Hno. by exists m. }
    assert (Hnd : NoDup ss).
    { unfold ss. pose proof (wf_numbers _ _ _ _ Hw2) as Hn. unfold node_numbers in Hn. clear -Hn.
      induction (g_nodes g2) as [|n l IH]; [constructor|]. cbn in Hn. apply list.NoDup_cons in Hn as [Hx Hn].
      rewrite filter_cons. case_decide; [|by apply IH]. cbn. constructor; [|by apply IH].
      intros Hin. apply Hx. apply elem_of_list_fmap in Hin as (m & E & Hm). apply elem_of_list_filter in Hm as [_ Hm].
      apply elem_of_list_fmap. by exists m. }
    rewrite Efresh. clear Efresh. clearbody ss. rewrite decide_True.
    2:{ apply list.Forall_forall. intros n Hn. apply elem_of_list_fmap in Hn as (s & -> & Hs). cbn.
        apply (wf_range _ _ _ _ Hw2). by apply Hss. }
    destruct (wf_add_nodes ip op G ss g1 Hw1 Hnd) as (Hwh & Nh & Gh).
    { intros s Hs. apply Hss in Hs as [Hs2 Hs1]. split; [done|]. by apply (wf_range _ _ _ _ Hw2). }
    set (h0 := mkGenome _ _ _ _) in *.
    destruct (cross_conns_ok ip op G g1 g2 h0 c1 c2 Hw1 Hw2 Hwh P1 P2) as (h & Eh & W1 & Nh1 & [t T1] & G1).
    { done. }
    { cbn. rewrite app_length. lia. }
    { done. }
    { intros s Hs. rewrite Nh. apply elem_of_app. destruct (decide (s ∈ node_numbers g1)); [by left|right]. by apply Hss. }
    rewrite Eh. cbn [mbind option_bind].
    assert (Hnd1 : NoDup c1) by (rewrite P1; apply NoDup_seq).
    assert (Hnd2 : NoDup c2) by (rewrite P2; apply NoDup_seq).
    assert (Hl1 : length c1 = length (g_conns g1)). { rewrite P1. apply seq_length. }
    assert (Hpos2 : forall k, k < length (g_conns g2) -> exists u, c2 !! u = Some k).
    { intros k Hk. apply elem_of_list_lookup. rewrite P2. apply elem_of_seq. lia. }
    set (choose := fun num => coin (position_in g1 c1 num) (position_in g2 c2 num)).
    (* what becomes of connection c of the copy *)
    destruct (for_loop_inv (fun i h' => well_formed ip op G h' /\ g_nodes h' = g_nodes h /\
        length (g_conns h') = length (g_conns h) /\
        (forall k, length (g_conns g1) <= k -> g_conns h' !! k = g_conns h !! k) /\
        forall k j c, c1 !! j = Some k -> g_conns g1 !! k = Some c ->
          (i <= j /\ g_conns h' !! k = Some c) \/
          (j < i /\ g_conns h' !! k = Some c /\ (c_inn c ∉ genes_of g2 \/ choose (c_inn c) = false)) \/
          (j < i /\ exists k2 d, g_conns g2 !! k2 = Some d /\ c_inn d = c_inn c /\ choose (c_inn c) = true /\
             g_conns h' !! k = Some (give d c)))
      (fun i h => k1 ← rd c1 i; inherit (coin i) g2 k1 0 c2 h) (length c1) 0 h) as (child & Ech & Wc & Nc & Lc & Hhi & Hc).
    - split; [done|]. split; [done|]. split; [done|]. split; [done|]. intros k j c Hj Hk. left. split; [lia|].
      rewrite T1. by apply lookup_app_l_Some.
    - intros i h' Hi (W2 & N2 & L2 & Hhi & H2).
      destruct (lookup_lt_is_Some_2 c1 i) as [k Hk]; [lia|]. rewrite (rd_lookup c1), Hk. cbn [mbind option_bind].
      assert (Hkl : k < length (g_conns g1)).
      { assert (Hin : k ∈ c1) by (by eapply elem_of_list_lookup_2). rewrite P1 in Hin. apply elem_of_seq in Hin. lia. }
      destruct (lookup_lt_is_Some_2 _ _ Hkl) as [c Hcc].
      assert (Hch : g_conns h' !! k = Some c).
      { destruct (H2 k i c Hk Hcc) as [[_ ?]|[[? _]|[? _]]]; [done|lia|lia]. }
      destruct (inherit_ok (coin i) g2 k h' c c2 0 Hch) as (r & Er & Hr).
      { intros k2 Hk2. rewrite P2 in Hk2. apply elem_of_seq in Hk2. lia. }
      rewrite Er.
      assert (Hother : forall k' j c', c1 !! j = Some k' -> g_conns g1 !! k' = Some c' -> j <> i -> k' <> k).
      { intros k' j c' Hj Hc' Hne ->. apply Hne. exact (NoDup_lookup c1 j i k Hnd1 Hj Hk). }
      assert (Hchoose : forall u k2 d, c2 !! u = Some k2 -> g_conns g2 !! k2 = Some d -> c_inn d = c_inn c ->
                choose (c_inn c) = coin i u).
      { intros u k2 d Hu Hd Ed. unfold choose. rewrite (position_in_ok ip op G g1 c1 i k c Hw1 Hnd1 Hk Hcc).
        rewrite <- Ed. by rewrite (position_in_ok ip op G g2 c2 u k2 d Hw2 Hnd2 Hu Hd). }
      destruct r as [d|].
      + destruct Hr as (u & k2 & Hu & Hd & Ed & Hcoin).
        destruct (upd_ok ip op G h' k (give d) c W2 Hch) as (h2 & E2 & W3 & N3 & C3 & _ & _); try done.
        exists h2. split; [done|]. split; [done|]. split; [congruence|]. split; [by rewrite C3, insert_length|].
        split; [intros k' Hk'; rewrite C3, list_lookup_insert_ne by lia; by apply Hhi|].
        intros k' j c' Hj Hc'. destruct (decide (j = i)) as [->|Hne].
        * assert (k' = k) by congruence. subst. assert (c' = c) by congruence. subst.
          right. right. split; [lia|]. exists k2, d. split; [done|]. split; [done|].
          split; [by rewrite (Hchoose u k2 d Hu Hd Ed)|]. rewrite C3. apply list_lookup_insert. by eapply lookup_lt_Some.
        * rewrite C3, list_lookup_insert_ne by (apply not_eq_sym; by eapply Hother).
          destruct (H2 k' j c' Hj Hc') as [[? ?]|[[? ?]|[? ?]]].
          -- left. split; [lia|done].
          -- right. left. split; [lia|done].
          -- right. right. split; [lia|done].
      + exists h'. split; [done|]. split; [done|]. split; [done|]. split; [done|]. split; [done|].
        intros k' j c' Hj Hc'. destruct (decide (j = i)) as [->|Hne].
        * assert (k' = k) by congruence. subst. assert (c' = c) by congruence. subst.
          right. left. split; [lia|]. split; [done|].
          destruct (decide (c_inn c ∈ genes_of g2)) as [Hin|Hnin]; [|by left]. right.
          unfold genes_of in Hin. apply elem_of_list_fmap in Hin as (d & Ed & Hd).
          apply elem_of_list_lookup in Hd as [k2 Hd]. destruct (Hpos2 k2) as [u Hu]; [by eapply lookup_lt_Some|].
          rewrite (Hchoose u k2 d Hu Hd (eq_sym Ed)). apply (Hr u k2 d Hu Hd (eq_sym Ed)).
        * destruct (H2 k' j c' Hj Hc') as [[? ?]|[[? ?]|[? ?]]].
          -- left. split; [lia|done].
          -- right. left. split; [lia|done].
          -- right. right. split; [lia|done].
    - rewrite Ech. exists child, choose. split; [done|]. split; [done|]. split; [intros num; by eexists _, _|].
      assert (Hnn : node_numbers child = node_numbers g ++ ss).
      { unfold node_numbers at 1. rewrite Nc. change (node_numbers h = node_numbers g ++ ss).
        by rewrite Nh1, Nh, N1. }
      split.
      { exists ss. split; [done|]. intros s. rewrite Hss, N1. done. }
      assert (Hpos1 : forall k, k < length (g_conns g1) -> exists j, c1 !! j = Some k /\ j < length c1).
      { intros k Hk. assert (Hin : k ∈ c1). { rewrite P1. apply elem_of_seq. lia. }
        apply elem_of_list_lookup in Hin as [j Hj]. exists j. split; [done|]. by eapply lookup_lt_Some. }
      assert (Hno2 : forall num, num ∉ genes_of g2 <-> forall a' b' e' w', ~ has_gene g2 num a' b' e' w').
      { intros num. rewrite (gene_iff ip op G g2) by done. naive_solver. }
      assert (Hno1 : forall num, num ∉ genes_of g1 <-> forall a' b' e' w', ~ has_gene g num a' b' e' w').
      { intros num. rewrite (gene_iff ip op G g1) by done. setoid_rewrite Ge1. naive_solver. }
      (* a gene of both parents joins the same nodes *)
      assert (Hsame : forall num a b e w a' b' e' w', has_gene g1 num a b e w -> has_gene g2 num a' b' e' w' -> a = a' /\ b = b').
      { intros num a b e w a' b' e' w' H H'.
        destruct (has_gene_number ip op G g1 _ _ _ _ _ Hw1 H) as (p & Ep & Hp & _).
        destruct (has_gene_number ip op G g2 _ _ _ _ _ Hw2 H') as (p' & Ep' & Hp' & _).
        assert (p' = p) by congruence. subst. rewrite Hp in Hp'. by simplify_eq. }
      assert (Hchild : forall num a b e w,
         (has_gene g num a b e w /\ ((forall a' b' e' w', ~ has_gene g2 num a' b' e' w') \/ choose num = false)) \/
         (has_gene g2 num a b e w /\ ((forall a' b' e' w', ~ has_gene g num a' b' e' w') \/ choose num = true)) ->
         has_gene child num a b e w).
      { intros num a b e w Hor.
        assert (Hfrom1 : forall e1 w1, has_gene g1 num a b e1 w1 ->
                  (exists j k c, c1 !! j = Some k /\ g_conns g1 !! k = Some c /\ c_inn c = num /\ c_flag c = e1 /\ c_weight c = w1 /\
                    forall c', g_conns child !! k = Some c' -> c_src c' = c_src c -> c_dst c' = c_dst c -> c_inn c' = num ->
                      has_gene child num a b (c_flag c') (c_weight c'))).
        { intros e1 w1 Hg. assert (Hgh : has_gene h num a b e1 w1) by (apply G1; by left).
          destruct Hg as (k & i & j & x & y & Hk & Hx & Ea & Hy & Eb).
          destruct (Hpos1 k) as (z & Hz & _); [by eapply lookup_lt_Some|].
          exists z, k, (mkConn num i j e1 w1). split; [done|]. split; [done|]. split; [done|]. split; [done|]. split; [done|].
          intros c' Hc' Es Ed En. cbn in *.
          destruct Hgh as (k' & i' & j' & x' & y' & Hk' & Hx' & Ea' & Hy' & Eb').
          assert (Hkh : g_conns h !! k = Some (mkConn num i j e1 w1)) by (rewrite T1; by apply lookup_app_l_Some).
          destruct (gene_inj _ _ _ _ _ _ _ _ W1 Hk' Hkh eq_refl) as [-> Eq]. simplify_eq.
          exists k, (c_src c'), (c_dst c'), x', y'. rewrite Nc. split; [by destruct c'|]. done. }
        assert (Hk : forall j k c, c1 !! j = Some k -> g_conns g1 !! k = Some c ->
          (g_conns child !! k = Some c /\ (c_inn c ∉ genes_of g2 \/ choose (c_inn c) = false)) \/
          (exists k2 d, g_conns g2 !! k2 = Some d /\ c_inn d = c_inn c /\ choose (c_inn c) = true /\
             g_conns child !! k = Some (give d c))).
        { intros j k c Hj Hkc. pose proof (lookup_lt_Some _ _ _ Hj).
          destruct (Hc k j c Hj Hkc) as [[? _]|[[_ ?]|[_ ?]]]; [lia|by left|by right]. }
        destruct Hor as [[Hg Hch]|[Hg Hch]].
        - apply Ge1 in Hg. destruct (Hfrom1 e w Hg) as (j & k & c & Hj & Hkc & En & <- & <- & Hto).
          destruct (Hk j k c Hj Hkc) as [[H1 _]|(k2 & d & Hd & Ed & Htrue & H1)].
          + by apply (Hto c).
          + exfalso. destruct Hch as [Hch|Hch]; [|congruence]. apply Hno2 in Hch. apply Hch.
            unfold genes_of. apply elem_of_list_fmap. exists d. split; [congruence|]. by eapply elem_of_list_lookup_2.
        - destruct Hch as [Hch|Hch].
          + apply Hno1 in Hch. assert (Hgh : has_gene h num a b e w) by (apply G1; right; done).
            destruct Hgh as (k & i & j & x & y & Hkh & Hx & Ea & Hy & Eb).
            exists k, i, j, x, y. rewrite Nc. split; [|done]. rewrite Hhi; [done|].
            destruct (decide (k < length (g_conns g1))) as [Hlt|]; [|lia]. exfalso. apply Hch.
            rewrite T1, lookup_app_l in Hkh by done. unfold genes_of. apply elem_of_list_fmap.
            exists (mkConn num i j e w). split; [done|]. by eapply elem_of_list_lookup_2.
          + destruct (decide (num ∈ genes_of g1)) as [Hin|Hnin].
            * apply (gene_iff ip op G g1) in Hin as (a1 & b1 & e1 & w1 & Hg1); [|done].
              destruct (Hsame _ _ _ _ _ _ _ _ _ Hg1 Hg) as [-> ->].
              destruct (Hfrom1 e1 w1 Hg1) as (j & k & c & Hj & Hkc & En & Ee & Ew & Hto).
              assert (Hin2 : num ∈ genes_of g2) by (apply (gene_iff ip op G g2); eauto).
              destruct (Hk j k c Hj Hkc) as [[H1 H3]|(k2 & d & Hd & Ed & Htrue & H1)].
              -- exfalso. rewrite En in H3. destruct H3; [done|congruence].
              -- destruct Hg as (k3 & i3 & j3 & x3 & y3 & Hk3 & _).
                 destruct (gene_inj _ _ _ _ _ _ _ _ Hw2 Hd Hk3 ltac:(cbn; congruence)) as [-> ->].
                 apply (Hto _ H1); done.
            * (* only in the second parent *)
              assert (Hgh : has_gene h num a b e w) by (apply G1; right; done).
              destruct Hgh as (k & i & j & x & y & Hkh & Hx & Ea & Hy & Eb).
              exists k, i, j, x, y. rewrite Nc. split; [|done]. rewrite Hhi; [done|].
              destruct (decide (k < length (g_conns g1))) as [Hlt|]; [|lia]. exfalso. apply Hnin.
              rewrite T1, lookup_app_l in Hkh by done. unfold genes_of. apply elem_of_list_fmap.
              exists (mkConn num i j e w). split; [done|]. by eapply elem_of_list_lookup_2. }
      intros num a b e w. split; [|apply Hchild].
      intros Hg.
      (* the number is a gene of a parent *)
      assert (Hex : exists a' b' e' w', has_gene g num a' b' e' w' \/ has_gene g2 num a' b' e' w').
      { destruct Hg as (k & i & j & x & y & Hk & _). pose proof (lookup_lt_Some _ _ _ Hk) as Hl. rewrite Lc in Hl.
        destruct (lookup_lt_is_Some_2 _ _ Hl) as [c0 Hc0].
        assert (En : c_inn c0 = num).
        { destruct (decide (k < length (g_conns g1))) as [Hlt|Hge].
          - destruct (Hpos1 k Hlt) as (z & Hz & _). rewrite T1, lookup_app_l in Hc0 by done.
            destruct (Hc k z c0 Hz Hc0) as [[_ H1]|[(_ & H1 & _)|(_ & k2 & d & _ & _ & _ & H1)]]; rewrite Hk in H1.
            + apply (inj Some) in H1. by subst c0.
            + apply (inj Some) in H1. by subst c0.
            + apply (inj Some) in H1. unfold give, set_flag, set_weight in H1. cbn in H1. by injection H1.
          - rewrite Hhi in Hk by lia. rewrite Hk in Hc0. by simplify_eq. }
        assert (Hin : num ∈ genes_of h).
        { unfold genes_of. apply elem_of_list_fmap. exists c0. split; [done|]. by eapply elem_of_list_lookup_2. }
        apply (gene_iff ip op G h) in Hin as (a' & b' & e' & w' & Hg'); [|done]. exists a', b', e', w'.
        apply G1 in Hg' as [?|[_ ?]]; [left; by apply Ge1|by right]. }
      assert (Hpick : exists a' b' e' w', 
         (has_gene g num a' b' e' w' /\ ((forall a' b' e' w', ~ has_gene g2 num a' b' e' w') \/ choose num = false)) \/
         (has_gene g2 num a' b' e' w' /\ ((forall a' b' e' w', ~ has_gene g num a' b' e' w') \/ choose num = true))).
      { destruct (decide (num ∈ genes_of g1)) as [I1|I1]; destruct (decide (num ∈ genes_of g2)) as [I2|I2].
        - apply (gene_iff ip op G g1) in I1 as (a1 & b1 & e1 & w1 & H1); [|done]. apply Ge1 in H1.
          apply (gene_iff ip op G g2) in I2 as (a2 & b2 & e2 & w2 & H2); [|done].
          destruct (choose num) eqn:Ec.
          + exists a2, b2, e2, w2. right. split; [done|]. by right.
          + exists a1, b1, e1, w1. left. split; [done|]. by right.
        - apply (gene_iff ip op G g1) in I1 as (a1 & b1 & e1 & w1 & H1); [|done]. apply Ge1 in H1.
          exists a1, b1, e1, w1. left. split; [done|]. left. by apply Hno2.
        - apply (gene_iff ip op G g2) in I2 as (a2 & b2 & e2 & w2 & H2); [|done].
          exists a2, b2, e2, w2. right. split; [done|]. left. by apply Hno1.
        - exfalso. destruct Hex as (a' & b' & e' & w' & [H|H]).
          + apply I1. apply (gene_iff ip op G g1); [done|]. exists a', b', e', w'. by apply Ge1.
          + apply I2. apply (gene_iff ip op G g2); [done|]. eauto. }
      destruct Hpick as (a' & b' & e' & w' & Hpick). pose proof (Hchild _ _ _ _ _ Hpick) as Hg'.
      destruct (has_gene_unique _ _ _ _ _ _ _ _ _ _ _ _ _ Wc Hg Hg') as (-> & -> & -> & ->). done.
  Qed.

  (** ** Histories *)

  Definition sound ip op (P : population (W := W)) : Prop :=
    consistent ip op (fst P) /\ Forall (well_formed ip op (fst P)) (snd P).

  Lemma extends_trans G1 G2 G3 : extends G1 G2 -> extends G2 G3 -> extends G1 G3.
  Proof.
    intros (A & [t B] & C) (A' & [t' B'] & C'). split; [lia|]. split.
    - exists (t ++ t'). by rewrite B', B, app_assoc.
    - intros p s H1 H2. apply C'; [|done]. by apply C.
  Qed.

  Lemma perform_ok ip op P o :
    1 <= ip -> 1 <= op -> sound ip op P -> possible o ->
    exists P', perform one ip op P o = Some P' /\ extends (fst P) (fst P') /\ sound ip op P'.
  Proof.
    intros Hip Hop [HG Hl] Ho. destruct P as [G l]. cbn [fst snd] in *.
    assert (Hget : forall m g, l !! m = Some g -> well_formed ip op G g).
    { intros m g Hm. rewrite list.Forall_forall in Hl. apply Hl. by eapply elem_of_list_lookup_2. }
    assert (Hstay : exists P', Some (G, l) = Some P' /\ extends G (fst P') /\ sound ip op P').
    { exists (G, l). split; [done|]. split; [apply extends_refl|done]. }
    assert (Hins : forall m G' g', consistent ip op G' -> extends G G' -> well_formed ip op G' g' ->
              extends G G' /\ sound ip op (G', <[m:=g']> l)).
    { intros m G' g' HG' Hext Hw. split; [done|]. split; [done|]. cbn. apply list.Forall_forall. intros x Hx.
      apply elem_of_list_lookup in Hx as [i Hi]. destruct (decide (i = m)) as [->|Hne].
      - destruct (decide (m < length l)).
        + rewrite list_lookup_insert in Hi by done. by simplify_eq.
        + rewrite list_insert_ge in Hi by lia. apply lookup_lt_Some in Hi. lia.
      - rewrite list_lookup_insert_ne in Hi by done. eapply wf_extend; [done|]. by eapply Hget. }
    assert (Happ : forall g', well_formed ip op G g' -> extends G G /\ sound ip op (G, l ++ [g'])).
    { intros g' Hw. split; [apply extends_refl|]. split; [done|]. cbn. apply Forall_app. split; [done|]. by constructor. }
    destruct o as [|m|m|m rmax rand|m rmax rand1 rand2 w|m rmax rand|m rmax rand|m rmax rand coin|m f|m m' coin|m];
      cbn [perform possible] in *.
    - eexists. split; [done|]. apply Happ. eapply (wf_extend _ _ (init_globals ip op)); [|apply wf_init].
      split; [apply (co_nodes _ _ _ HG)|]. split; [by exists (gl_mconns G)|]. intros p s H. cbn in H. by rewrite lookup_nil in H.
    - destruct (l !! m) as [g|] eqn:Em; [|done].
      destruct (copy_ok ip op G g (Hget _ _ Em)) as (g' & -> & Hw & _). cbn. eexists. split; [done|]. by apply Happ.
    - destruct (l !! m) as [g|] eqn:Em; [|done]. unfold free_genome.
      destruct (get_connections_ok ip op G g HG (Hget _ _ Em)) as (ks & -> & _). cbn. eexists. split; [done|].
      split; [apply extends_refl|]. split; [done|]. cbn. apply list.Forall_forall. intros x Hx. rewrite list.Forall_forall in Hl. apply Hl.
      apply elem_of_list_lookup in Hx as [i Hi]. destruct (decide (i < m)).
      + rewrite lookup_delete_lt in Hi by done. by eapply elem_of_list_lookup_2.
      + rewrite lookup_delete_ge in Hi by lia. by eapply elem_of_list_lookup_2.
    - destruct (l !! m) as [g|] eqn:Em; [|done].
      destruct (split_ok one ip op rmax rand G g Ho Hip HG (Hget _ _ Em)) as (r & G' & g' & -> & ? & ? & ? & _).
      cbn. eexists. split; [done|]. by apply Hins.
    - destruct (l !! m) as [g|] eqn:Em; [|done]. destruct Ho as [Ho1 Ho2].
      destruct (add_ok ip op rmax rand1 rand2 w G g Ho1 Ho2 Hip Hop HG (Hget _ _ Em)) as (r & G' & g' & -> & ? & ? & ? & _).
      cbn. eexists. split; [done|]. by apply Hins.
    - destruct (l !! m) as [g|] eqn:Em; [|done].
      destruct (flip_ok ip op true rmax rand G g Ho HG (Hget _ _ Em)) as (r & g' & -> & ? & _).
      cbn. eexists. split; [done|]. apply Hins; [done|apply extends_refl|done].
    - destruct (l !! m) as [g|] eqn:Em; [|done].
      destruct (flip_ok ip op false rmax rand G g Ho HG (Hget _ _ Em)) as (r & g' & -> & ? & _).
      cbn. eexists. split; [done|]. apply Hins; [done|apply extends_refl|done].
    - destruct (l !! m) as [g|] eqn:Em; [|done].
      destruct (activate_many_ok ip op rmax rand coin G g Ho HG (Hget _ _ Em)) as (r & g' & -> & ? & _).
      cbn. eexists. split; [done|]. apply Hins; [done|apply extends_refl|done].
    - destruct (l !! m) as [g|] eqn:Em; [|done].
      destruct (weights_ok ip op G g f HG (Hget _ _ Em)) as (g' & -> & ? & _).
      cbn. eexists. split; [done|]. apply Hins; [done|apply extends_refl|done].
    - destruct (l !! m) as [g|] eqn:Em; [|done]. destruct (l !! m') as [g2|] eqn:Em'; [|done].
      destruct (crossover_ok ip op coin G g g2 HG (Hget _ _ Em) (Hget _ _ Em')) as (child & choose & -> & ? & _).
      cbn. eexists. split; [done|]. by apply Happ.
    - destruct (l !! m) as [g|] eqn:Em; [|done].
      destruct (adjust_ok ip op G g (Hget _ _ Em)) as (g' & -> & ? & _).
      cbn. eexists. split; [done|]. apply Hins; [done|apply extends_refl|done].
  Qed.

  Lemma history_ok ip op os : forall P,
    1 <= ip -> 1 <= op -> sound ip op P -> Forall possible os ->
    exists P', history one ip op P os = Some P' /\ extends (fst P) (fst P') /\ sound ip op P'.
  Proof.
    induction os as [|o os IH]; intros P Hip Hop Hs Hos.
    - exists P. split; [done|]. split; [apply extends_refl|done].
    - apply list.Forall_cons in Hos as [Ho Hos]. destruct (perform_ok ip op P o Hip Hop Hs Ho) as (P' & E & He & Hs').
      cbn. rewrite E. cbn. destruct (IH P' Hip Hop Hs' Hos) as (P2 & E2 & He2 & Hs2). exists P2. split; [done|].
      split; [by eapply extends_trans|done].
  Qed.
End proofs.
