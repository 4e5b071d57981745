From Verif Require Import Base BaseLemmas Neat_Model Neat_Spec Neat_Proofs Gsave_Model Gsave_Spec Gsave_Proofs.
Open Scope nat_scope.

Section gsave.
  Context {W : Type} (cv : Z -> Z) (cvw : W -> W).
  Hypothesis cv_inv : undoes_itself cv.
  Hypothesis cvw_inv : undoes_itself cvw.
  Implicit Types (g : genome W) (ws : list (word W)) (ns : list rawnode).

  Lemma mapM_rd {A} (l : list A) ks : ks ≡ₚ seq 0 (length l) -> exists cs, mapM (rd l) ks = Some cs /\ cs ≡ₚ l.
  Proof using.
    intros Hp. assert (H : exists cs, mapM (rd l) ks = Some cs).
    { apply mapM_is_Some. apply list.Forall_forall. intros k Hk. rewrite Hp in Hk. apply elem_of_seq in Hk.
      apply lookup_lt_is_Some. lia. }
    destruct H as (cs & E). exists cs. split; [done|]. apply mapM_Some in E.
    assert (E' : forall xs ys, Forall2 (fun k c => rd l k = Some c) xs ys -> ys = omap (fun k => l !! k) xs).
    { intros xs ys HF. induction HF as [|x y xs ys Hx HF IH]; [done|]. rewrite omap_one. unfold rd in Hx. rewrite Hx. by f_equal. }
    apply E' in E. subst cs. rewrite Hp. clear. induction l as [|x l IH] using rev_ind; [done|].
    rewrite app_length, Nat.add_1_r, seq_S, omap_app. cbn [omap]. rewrite Nat.add_0_l. rewrite omap_one.
    rewrite lookup_app_r, Nat.sub_diag by lia. cbn [lookup list_lookup].
    f_equiv; [|done]. rewrite <- IH at 2. apply reflexive_eq.
    apply list_omap_ext. apply Forall2_same_length_lookup_2; [done|]. intros i k k' Hk Hk'. simplify_eq. apply elem_of_list_lookup_2 in Hk. apply elem_of_seq in Hk. by rewrite lookup_app_l by lia.
  Qed.

  (** what [genome_words] writes exists *)
  Lemma conn_words_ok ip op G g k : well_formed ip op G g -> k < length (g_conns g) -> is_Some (conn_words cv cvw g k).
  Proof using.
    intros Hw Hk. destruct (lookup_lt_is_Some_2 (g_conns g) k Hk) as (c & Ec).
    destruct (wf_ends _ _ _ _ Hw _ _ Ec) as (p & x & y & _ & Ex & Ey & _). unfold conn_words, rd.
    rewrite Ec. cbn. rewrite Ex. cbn. rewrite Ey. cbn. eauto.
  Qed.

  Lemma genome_words_ok ip op G g fit nw : consistent ip op G -> well_formed ip op G g ->
    exists ks kws, get_connections g (gl_conns G) = Some ks /\ ks ≡ₚ seq 0 (length (g_conns g)) /\
      mapM (conn_words cv cvw g) ks = Some kws /\
      genome_words cv cvw nw g fit (gl_conns G) =
        Some ([Int (cv (Z.of_nat (g_input g))); Int (cv (Z.of_nat (g_output g)));
           Int (cv (Z.of_nat (length (g_nodes g)))); Flt (cvw fit)] ++
          mjoin (nw <$> g_nodes g) ++ [Int (cv (Z.of_nat (length ks)))] ++ mjoin kws).
  Proof using.
    intros HG Hw. destruct (get_connections_ok ip op G g HG Hw) as (ks & Ek & Hp).
    assert (H : is_Some (mapM (conn_words cv cvw g) ks)).
    { apply mapM_is_Some, list.Forall_forall. intros k Hk. rewrite Hp in Hk. apply elem_of_seq in Hk. eapply conn_words_ok; [done|lia]. }
    destruct H as (kws & Ekw). exists ks, kws. split; [done|]. split; [done|]. split; [done|].
    unfold genome_words. rewrite Ek. cbn [mbind option_bind]. by rewrite Ekw.
  Qed.

  Lemma conn_numbers ip op G g nc : consistent ip op G -> well_formed ip op G g -> gl_conns G <= nc ->
    Forall (fun c => 1 <= c_inn c <= nc) (g_conns g).
  Proof using.
    intros HG Hw Hle. apply Forall_lookup. intros k c Hk. destruct (wf_ends _ _ _ _ Hw _ _ Hk) as (p & x & y & E & _ & _ & Hp).
    apply lookup_lt_Some in Hp. rewrite (co_conns _ _ _ HG) in Hp. lia.
  Qed.

  (** reading the words up to the lists of the nodes; [rw] is a node as it is read back *)
  Lemma read_ok ip op G g fit find nc rw nw ws rest : consistent ip op G -> well_formed ip op G g -> gl_conns G <= nc ->
    good_find find -> (forall n, r_inn (rw n) = Z.of_nat (n_inn n)) -> (forall n, nw n = raw_words cv (rw n)) ->
    genome_words cv cvw nw g fit (gl_conns G) = Some ws ->
    exists cs tab, cs ≡ₚ g_conns g /\ tabled nc tab cs /\
      read_genome cv cvw find nc (ws ++ rest) =
        nodes ← mapM (link_node (rw <$> g_nodes g) cs tab) (rw <$> g_nodes g);
        Some (mkGenome nodes cs (g_input g) (g_output g), fit, rest).
  Proof using cv_inv cvw_inv.
    intros HG Hw Hnc Hf Hrw Hnw E. destruct (genome_words_ok ip op G g fit nw HG Hw) as (ks & kws & _ & Hp & Ekw & E').
    rewrite E in E'. injection E' as ->.
    destruct (mapM_rd (g_conns g) ks Hp) as (cs & Ecs & Hcs).
    assert (Hc : Forall (fun c => 1 <= c_inn c <= nc) cs) by (rewrite Hcs; by eapply conn_numbers).
    destruct (put_all g nc ks cs) as (tab & Et & Ht); [rewrite Hcs; apply (wf_genes _ _ _ _ Hw)|done|done|].
    exists cs, tab. split; [done|]. split; [done|].
    assert (Hn : numbers_of g (rw <$> g_nodes g)).
    { unfold numbers_of, node_numbers. rewrite <- !list_fmap_compose. apply list_fmap_ext. intros _ n _. apply Hrw. }
    unfold read_genome. cbn [app]. rewrite (get_int_ok cv cv_inv). cbn [mbind option_bind].
    rewrite (get_int_ok cv cv_inv). cbn [mbind option_bind]. rewrite (get_int_ok cv cv_inv). cbn [mbind option_bind].
    rewrite (get_flt_ok cvw cvw_inv). cbn [mbind option_bind]. rewrite !Nat2Z.id.
    assert (E2 : nw <$> g_nodes g = raw_words cv <$> (rw <$> g_nodes g)).
    { rewrite <- list_fmap_compose. apply list_fmap_ext. intros _ n _. apply Hnw. }
    rewrite E2. rewrite <- (assoc_L (++)).
    replace (length (g_nodes g)) with (length (rw <$> g_nodes g)) by apply fmap_length.
    rewrite (get_nodes_ok cv cv_inv). cbn [mbind option_bind app].
    rewrite (get_int_ok cv cv_inv). cbn [mbind option_bind]. rewrite !Nat2Z.id.
    rewrite (get_conns_ok cv cvw cv_inv cvw_inv find g (rw <$> g_nodes g) ip op G rest Hf Hw Hn ks kws 0 _ _ Ekw).
    rewrite Et. done.
  Qed.

  (** the lists of node [i] *)
  Lemma linked ip op G g nc rw cs tab i n : consistent ip op G -> well_formed ip op G g -> gl_conns G <= nc ->
    (forall n, r_inn (rw n) = Z.of_nat (n_inn n)) -> cs ≡ₚ g_conns g -> tabled nc tab cs -> g_nodes g !! i = Some n ->
    link_node (rw <$> g_nodes g) cs tab (rw n) =
      if decide (Z.of_nat (length (n_out n)) = r_out (rw n) /\ Z.of_nat (length (n_in n)) = r_in (rw n))
      then Some (mkNode (n_inn n) (chosen c_dst i cs tab) (chosen c_src i cs tab) None) else None.
  Proof using.
    intros HG Hw Hnc Hrw Hcs Ht Hi.
    assert (Hc : Forall (fun c => 1 <= c_inn c <= nc) cs) by (rewrite Hcs; by eapply conn_numbers).
    assert (Hn : numbers_of g (rw <$> g_nodes g)).
    { unfold numbers_of, node_numbers. rewrite <- !list_fmap_compose. apply list_fmap_ext. intros _ m _. apply Hrw. }
    rewrite (link_node_ok (rw <$> g_nodes g) cs i (rw n) tab).
    - destruct (wf_lists _ _ _ _ Hw _ _ Hi) as (No & Ni & Ho & Hin).
      rewrite (chosen_length c_src i cs tab nc Ht Hc), (chosen_length c_dst i cs tab nc Ht Hc).
      rewrite (marked_length (fun c => c_src c = i) (g_conns g) (n_out n) No Ho).
      rewrite (marked_length (fun c => c_dst c = i) (g_conns g) (n_in n) Ni Hin).
      assert (El : forall f : conn W -> nat, length (filter (fun c => f c = i) cs) = length (filter (fun c => f c = i) (g_conns g))).
      { intros f. by rewrite Hcs. }
      rewrite !El, Hrw, Nat2Z.id. done.
    - apply (numbers_nodup g); [done|apply (wf_numbers _ _ _ _ Hw)].
    - by rewrite list_lookup_fmap, Hi.
    - intros k Hk. apply elem_of_list_lookup_1 in Hk as (p & Hp). apply (proj2 Ht) in Hp as (c & Hk & _). exists c.
      assert (Hin : c ∈ g_conns g) by (rewrite <- Hcs; by eapply elem_of_list_lookup_2).
      apply elem_of_list_lookup_1 in Hin as (k' & Hk').
      destruct (wf_ends _ _ _ _ Hw _ _ Hk') as (_ & x & y & _ & Ex & Ey & _).
      exists (rw x), (rw y). rewrite !list_lookup_fmap, Ex, Ey. done.
  Qed.

  (** the genome that is read *)
  Definition reread g (cs : list (conn W)) (tab : list (option nat)) : genome W :=
    mkGenome (imap (fun i n => mkNode (n_inn n) (chosen c_dst i cs tab) (chosen c_src i cs tab) None) (g_nodes g))
      cs (g_input g) (g_output g).

  Lemma mapM_imap {A B C} (f : B -> option C) (r : A -> B) (h : nat -> A -> C) l :
    (forall i a, l !! i = Some a -> f (r a) = Some (h i a)) -> mapM f (r <$> l) = Some (imap h l).
  Proof using.
    revert h. induction l as [|a l IH]; intros h H; [done|]. cbn [fmap list_fmap mapM imap]. rewrite (H 0 a) by done. cbn [mbind option_bind].
    fold (fmap (M:=list) r l). rewrite (IH (h ∘ S)); [done|]. intros i b Hb. apply (H (S i) b Hb).
  Qed.

  Lemma read_exact ip op G g fit find nc ws rest nw rw : consistent ip op G -> well_formed ip op G g -> gl_conns G <= nc ->
    good_find find ->
    (forall n, rw n = mkRaw (Z.of_nat (length (n_in n))) (Z.of_nat (length (n_out n))) (Z.of_nat (n_inn n))) ->
    (forall n, nw n = raw_words cv (rw n)) ->
    genome_words cv cvw nw g fit (gl_conns G) = Some ws ->
    exists cs tab, cs ≡ₚ g_conns g /\ tabled nc tab cs /\
      read_genome cv cvw find nc (ws ++ rest) = Some (reread g cs tab, fit, rest).
  Proof using cv_inv cvw_inv.
    intros HG Hw Hnc Hf Hrw Hnw E. assert (Hr : forall n, r_inn (rw n) = Z.of_nat (n_inn n)) by (intros n; by rewrite Hrw).
    destruct (read_ok ip op G g fit find nc rw nw ws rest HG Hw Hnc Hf Hr Hnw E) as (cs & tab & Hcs & Ht & Er).
    exists cs, tab. split; [done|]. split; [done|]. rewrite Er.
    rewrite (mapM_imap _ rw (fun i n => mkNode (n_inn n) (chosen c_dst i cs tab) (chosen c_src i cs tab) None)); [done|].
    intros i n Hi. rewrite (linked ip op G g nc rw cs tab i n) by done. rewrite decide_True; [done|]. by rewrite Hrw.
  Qed.

  Lemma read_wrong ip op G g fit find nc ws rest nw rw n : consistent ip op G -> well_formed ip op G g -> gl_conns G <= nc ->
    good_find find -> (forall n, r_inn (rw n) = Z.of_nat (n_inn n)) -> (forall n, nw n = raw_words cv (rw n)) ->
    n ∈ g_nodes g -> r_out (rw n) <> Z.of_nat (length (n_out n)) ->
    genome_words cv cvw nw g fit (gl_conns G) = Some ws -> read_genome cv cvw find nc (ws ++ rest) = None.
  Proof using cv_inv cvw_inv.
    intros HG Hw Hnc Hf Hr Hnw Hn Ho E.
    destruct (read_ok ip op G g fit find nc rw nw ws rest HG Hw Hnc Hf Hr Hnw E) as (cs & tab & Hcs & Ht & ->).
    destruct (mapM (link_node (rw <$> g_nodes g) cs tab) (rw <$> g_nodes g)) as [nodes|] eqn:Em; [exfalso|done].
    apply mapM_Some in Em. apply elem_of_list_lookup_1 in Hn as (i & Hi).
    destruct (Forall2_lookup_l _ _ _ i (rw n) Em) as (x & _ & Hx); [by rewrite list_lookup_fmap, Hi|].
    rewrite (linked ip op G g nc rw cs tab i n) in Hx by done. rewrite decide_False in Hx; [done|]. lia.
  Qed.

  (** ** It is the same genome *)

  Lemma reread_numbers g cs tab : node_numbers (reread g cs tab) = node_numbers g.
  Proof using.
    unfold node_numbers, reread. cbn. apply list_eq. intros i. rewrite !list_lookup_fmap, list_lookup_imap.
    by destruct (g_nodes g !! i).
  Qed.

  Lemma reread_node g cs tab i n : g_nodes g !! i = Some n ->
    g_nodes (reread g cs tab) !! i = Some (mkNode (n_inn n) (chosen c_dst i cs tab) (chosen c_src i cs tab) None).
  Proof using. intros H. unfold reread. cbn. by rewrite list_lookup_imap, H. Qed.

  Lemma reread_node_inv g cs tab i x : g_nodes (reread g cs tab) !! i = Some x ->
    exists n, g_nodes g !! i = Some n /\ x = mkNode (n_inn n) (chosen c_dst i cs tab) (chosen c_src i cs tab) None.
  Proof using. unfold reread. cbn. rewrite list_lookup_imap. intros H. apply fmap_Some in H as (n & ? & ?). eauto. Qed.

  Lemma perm_lookup {A} (l l' : list A) k x : l ≡ₚ l' -> l !! k = Some x -> exists k', l' !! k' = Some x.
  Proof using. intros Hp H. apply elem_of_list_lookup_1. rewrite <- Hp. by eapply elem_of_list_lookup_2. Qed.

  Lemma reread_wf ip op G g cs tab nc : consistent ip op G -> well_formed ip op G g -> gl_conns G <= nc ->
    cs ≡ₚ g_conns g -> tabled nc tab cs -> well_formed ip op G (reread g cs tab).
  Proof using.
    intros HG Hw Hnc Hcs Ht.
    assert (Hc : Forall (fun c => 1 <= c_inn c <= nc) cs) by (rewrite Hcs; by eapply conn_numbers).
    split.
    - apply (wf_input _ _ _ _ Hw).
    - apply (wf_output _ _ _ _ Hw).
    - intros i Hi. destruct (wf_base _ _ _ _ Hw i Hi) as (n & Hn & E). eexists. split; [by apply reread_node|done].
    - rewrite reread_numbers. apply (wf_numbers _ _ _ _ Hw).
    - rewrite reread_numbers. apply (wf_range _ _ _ _ Hw).
    - cbn. rewrite Hcs. apply (wf_genes _ _ _ _ Hw).
    - cbn [reread g_conns]. intros k c Hk. destruct (perm_lookup _ _ _ _ Hcs Hk) as (k' & Hk').
      destruct (wf_ends _ _ _ _ Hw _ _ Hk') as (p & x & y & ? & Ex & Ey & ?). exists p. do 2 eexists.
      split; [done|]. split; [by apply reread_node|]. split; [by apply reread_node|]. done.
    - intros i x Hx. apply reread_node_inv in Hx as (n & Hn & ->). cbn [n_in n_out reread g_conns].
      split; [by eapply chosen_nodup|]. split; [by eapply chosen_nodup|].
      split; intros k; by eapply chosen_elem.
  Qed.

  Lemma reread_genes g cs tab num a b e w : cs ≡ₚ g_conns g ->
    has_gene (reread g cs tab) num a b e w <-> has_gene g num a b e w.
  Proof using.
    intros Hcs. split.
    - intros (k & i & j & x & y & Hk & Hi & <- & Hj & <-). cbn [reread g_conns] in Hk.
      destruct (perm_lookup _ _ _ _ Hcs Hk) as (k' & Hk').
      apply reread_node_inv in Hi as (n & Hi & ->). apply reread_node_inv in Hj as (m & Hj & ->).
      by exists k', i, j, n, m.
    - intros (k & i & j & x & y & Hk & Hi & <- & Hj & <-). destruct (perm_lookup _ _ _ _ (symmetry Hcs) Hk) as (k' & Hk').
      exists k', i, j. do 2 eexists. split; [done|]. split; [by apply reread_node|]. split; [done|].
      split; [by apply reread_node|]. done.
  Qed.

  Lemma reread_same g cs tab : cs ≡ₚ g_conns g -> same_genome g (reread g cs tab).
  Proof using.
    intros Hcs. split; [done|]. split; [done|]. split; [apply reread_numbers|]. intros. by apply reread_genes.
  Qed.

  Lemma chosen_increasing (f : conn W -> nat) i cs tab nc : tabled nc tab cs ->
    exists l, mapM (rd cs) (chosen f i cs tab) = Some l /\ increasing (c_inn <$> l).
  Proof using.
    intros [Hl Ht].
    assert (Hf : forall e x, (k ← e; c ← cs !! k; if decide (f c = i) then Some k else None) = Some x -> e = Some x /\ is_Some (cs !! x)).
    { intros [k|] x E; cbn in E; [|done]. destruct (cs !! k) eqn:Ek; [|done]. cbn in E. case_decide; simplify_eq. rewrite Ek. eauto. }
    assert (H : is_Some (mapM (rd cs) (chosen f i cs tab))).
    { apply mapM_is_Some, list.Forall_forall. intros k Hk. apply elem_of_list_omap in Hk as (e & _ & E). apply Hf in E. apply E. }
    destruct H as (l & El). exists l. split; [done|]. intros p q x y Hpq Hx Hy.
    rewrite list_lookup_fmap in Hx, Hy. apply fmap_Some in Hx as (c & Hc & ->). apply fmap_Some in Hy as (d & Hd & ->).
    apply mapM_Some in El.
    destruct (Forall2_lookup_r _ _ _ p c El Hc) as (kc & Hkc & Ec). destruct (Forall2_lookup_r _ _ _ q d El Hd) as (kd & Hkd & Ed).
    unfold chosen in Hkc, Hkd. destruct (omap_order _ _ p q kc kd Hpq Hkc Hkd) as (p' & q' & a & b & Hlt & Ha & Fa & Hb & Fb).
    apply Hf in Fa as [-> _], Fb as [-> _]. apply Ht in Ha as (c' & Hc' & ?), Hb as (d' & Hd' & ?). unfold rd in Ec, Ed. simplify_eq. lia.
  Qed.

  Lemma reread_order g cs tab nc : tabled nc tab cs -> in_order (reread g cs tab).
  Proof using.
    intros Ht i x Hx. apply reread_node_inv in Hx as (n & Hn & ->). cbn [n_in n_out reread g_conns].
    destruct (chosen_increasing c_dst i cs tab nc Ht) as (l1 & ? & ?). destruct (chosen_increasing c_src i cs tab nc Ht) as (l2 & ? & ?).
    by exists l1, l2.
  Qed.

  (** ** A table that is too small *)

  Lemma put_small g ks : forall s s', each (put g) ks s = Some s' ->
    Forall (fun k => forall c, g_conns g !! k = Some c -> c_inn c - 1 < length (fst s)) ks.
  Proof using.
    induction ks as [|k ks IH]; intros s s' E; [constructor|]. cbn in E. apply bind_Some in E as (s1 & E1' & E). unfold put in E1'.
    apply bind_Some in E1' as (c & Ec & E1'). apply bind_Some in E1' as (tab & Et & E1'). simplify_eq.
    apply wr_inv in Et as [Hlt ->]. constructor.
    - intros d Hd. unfold rd in Ec. by simplify_eq.
    - specialize (IH _ _ E). cbn [fst] in IH. by rewrite insert_length in IH.
  Qed.

  Lemma read_small ip op G g fit find nc rw nw ws rest c : consistent ip op G -> well_formed ip op G g ->
    good_find find -> (forall n, r_inn (rw n) = Z.of_nat (n_inn n)) -> (forall n, nw n = raw_words cv (rw n)) ->
    c ∈ g_conns g -> nc < c_inn c ->
    genome_words cv cvw nw g fit (gl_conns G) = Some ws -> read_genome cv cvw find nc (ws ++ rest) = None.
  Proof using cv_inv cvw_inv.
    intros HG Hw Hf Hrw Hnw Hc Hlt E. destruct (genome_words_ok ip op G g fit nw HG Hw) as (ks & kws & _ & Hp & Ekw & E').
    rewrite E in E'. injection E' as ->.
    assert (Hn : numbers_of g (rw <$> g_nodes g)).
    { unfold numbers_of, node_numbers. rewrite <- !list_fmap_compose. apply list_fmap_ext. intros _ n _. apply Hrw. }
    unfold read_genome. cbn [app]. rewrite (get_int_ok cv cv_inv). cbn [mbind option_bind].
    rewrite (get_int_ok cv cv_inv). cbn [mbind option_bind]. rewrite (get_int_ok cv cv_inv). cbn [mbind option_bind].
    rewrite (get_flt_ok cvw cvw_inv). cbn [mbind option_bind]. rewrite !Nat2Z.id.
    assert (E2 : nw <$> g_nodes g = raw_words cv <$> (rw <$> g_nodes g)).
    { rewrite <- list_fmap_compose. apply list_fmap_ext. intros _ n _. apply Hnw. }
    rewrite E2. rewrite <- (assoc_L (++)).
    replace (length (g_nodes g)) with (length (rw <$> g_nodes g)) by apply fmap_length.
    rewrite (get_nodes_ok cv cv_inv). cbn [mbind option_bind app].
    rewrite (get_int_ok cv cv_inv). cbn [mbind option_bind]. rewrite !Nat2Z.id.
    rewrite (get_conns_ok cv cvw cv_inv cvw_inv find g (rw <$> g_nodes g) ip op G rest Hf Hw Hn ks kws 0 _ _ Ekw).
    destruct (each (put g) ks (replicate nc None, [])) as [s'|] eqn:Ee; [exfalso|done].
    apply put_small in Ee. cbn [fst] in Ee. rewrite replicate_length in Ee.
    apply elem_of_list_lookup_1 in Hc as (k & Hk). rewrite list.Forall_forall in Ee. specialize (Ee k).
    assert (Hin : k ∈ ks). { rewrite Hp. apply elem_of_seq. apply lookup_lt_Some in Hk. lia. }
    specialize (Ee Hin c Hk). destruct (wf_ends _ _ _ _ Hw _ _ Hk) as (p & _ & _ & ? & _). lia.
  Qed.
End gsave.
