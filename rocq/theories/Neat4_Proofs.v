From Verif Require Import Base BaseLemmas Shuffle_Model Shuffle_Spec Shuffle_Proofs Neat_Model Neat_Spec Neat_Proofs Neat2_Proofs Neat3_Proofs.
Open Scope nat_scope.

Section proofs.
  Context {W : Type} (one : W).
  Implicit Types g : genome W.

  (** ** Copying *)

  Lemma NoDup_mjoin {A} (ls : list (list A)) :
    (forall i l, ls !! i = Some l -> NoDup l) ->
    (forall i j l l' x, ls !! i = Some l -> ls !! j = Some l' -> x ∈ l -> x ∈ l' -> i = j) ->
    NoDup (mjoin ls).
  Proof.
    induction ls as [|a ls IH]; intros H1 H2.
    - apply NoDup_nil_2.
    - change (NoDup (a ++ mjoin ls)). apply NoDup_app. split; [by apply (H1 0)|]. split.
      + intros x Hx Hx'. apply elem_of_list_join in Hx' as (l & Hl & Hin).
        apply elem_of_list_lookup in Hin as [j Hj].
        discriminate (H2 0 (S j) a l x eq_refl Hj Hx Hl).
      + apply IH.
        * intros i l Hl. by apply (H1 (S i)).
        * intros i j l l' x Hi Hj Hx Hx'. injection (H2 (S i) (S j) l l' x Hi Hj Hx Hx'). done.
  Qed.

  (** positions in the list [f] of the elements of [ks] *)
  Definition at_ (f : list nat) (zs ks : list nat) : Prop := Forall2 (fun z k => f !! z = Some k) zs ks.

  Lemma at_mono f t zs ks : at_ f zs ks -> at_ (f ++ t) zs ks.
  Proof. intros H. eapply Forall2_impl; [exact H|]. intros z k Hz. cbn. by apply lookup_app_l_Some. Qed.

  (** a genome obtained by renaming the connections *)
  Lemma relabel ip op G g g' f :
    well_formed ip op G g -> NoDup f -> (forall k, k < length (g_conns g) -> k ∈ f) ->
    g_input g' = g_input g -> g_output g' = g_output g ->
    length (g_conns g') = length f ->
    (forall z k, f !! z = Some k -> exists c, g_conns g !! k = Some c /\ g_conns g' !! z = Some c) ->
    length (g_nodes g') = length (g_nodes g) ->
    (forall i n, g_nodes g !! i = Some n -> exists n', g_nodes g' !! i = Some n' /\ n_inn n' = n_inn n /\
       at_ f (n_in n') (n_in n) /\ at_ f (n_out n') (n_out n)) ->
    well_formed ip op G g' /\ node_numbers g' = node_numbers g /\
    (forall num a b e w, has_gene g' num a b e w <-> has_gene g num a b e w).
  Proof.
    intros Hwf Hnd Hall Ei Eo Hlen Hc Hln Hn.
    assert (Hc' : forall z c, g_conns g' !! z = Some c -> exists k, f !! z = Some k /\ g_conns g !! k = Some c).
    { intros z c Hz. pose proof (lookup_lt_Some _ _ _ Hz) as Hl. rewrite Hlen in Hl.
      destruct (lookup_lt_is_Some_2 _ _ Hl) as [k Hk]. exists k. split; [done|].
      destruct (Hc z k Hk) as (c' & ? & ?). congruence. }
    assert (Hc2 : forall k c, g_conns g !! k = Some c -> exists z, f !! z = Some k /\ g_conns g' !! z = Some c).
    { intros k c Hk. assert (Hin : k ∈ f). { apply Hall. by eapply lookup_lt_Some. }
      apply elem_of_list_lookup in Hin as [z Hz]. exists z. split; [done|].
      destruct (Hc z k Hz) as (c' & ? & ?). congruence. }
    assert (Hn' : forall i n', g_nodes g' !! i = Some n' -> exists n, g_nodes g !! i = Some n /\ n_inn n' = n_inn n /\
       at_ f (n_in n') (n_in n) /\ at_ f (n_out n') (n_out n)).
    { intros i n' Hi. pose proof (lookup_lt_Some _ _ _ Hi) as Hl. rewrite Hln in Hl.
      destruct (lookup_lt_is_Some_2 _ _ Hl) as [n Hni]. exists n. split; [done|].
      destruct (Hn i n Hni) as (n2 & ? & ?). congruence. }
    assert (Hnum : node_numbers g' = node_numbers g).
    { unfold node_numbers. apply list_eq. intros i. rewrite !list_lookup_fmap.
      destruct (g_nodes g !! i) as [n|] eqn:E.
      - destruct (Hn i n E) as (n' & -> & E' & _). cbn. by rewrite E'.
      - apply lookup_ge_None in E. rewrite <- Hln in E. apply lookup_ge_None in E. by rewrite E. }
    split; [|split; [done|]].
    - constructor.
      + rewrite Ei. apply Hwf.
      + rewrite Eo. apply Hwf.
      + intros i Hi. destruct (wf_base _ _ _ _ Hwf i Hi) as (n & Hni & En).
        destruct (Hn i n Hni) as (n' & ? & E' & _). exists n'. split; [done|lia].
      + rewrite Hnum. apply Hwf.
      + rewrite Hnum. apply Hwf.
      + apply NoDup_alt. intros z z' q Hz Hz'. rewrite list_lookup_fmap in Hz, Hz'.
        destruct (g_conns g' !! z) as [c|] eqn:Ec; [|done]. destruct (g_conns g' !! z') as [c'|] eqn:Ec'; [|done].
        cbn in Hz, Hz'. simplify_eq. apply Hc' in Ec as (k & Hk & Ek). apply Hc' in Ec' as (k' & Hk' & Ek').
        destruct (gene_inj _ _ _ _ _ _ _ _ Hwf Ek Ek' ltac:(congruence)) as [-> _]. by eapply NoDup_lookup.
      + intros z c Hz. apply Hc' in Hz as (k & Hk & Ek).
        destruct (wf_ends _ _ _ _ Hwf _ _ Ek) as (p & x & y & Ep & Hx & Hy & Hm).
        destruct (Hn _ _ Hx) as (x' & ? & Ex & _). destruct (Hn _ _ Hy) as (y' & ? & Ey & _).
        exists p, x', y'. rewrite Ex, Ey. done.
      + intros i n' Hi. apply Hn' in Hi as (n & Hi & _ & Hin & Hout).
        destruct (wf_lists _ _ _ _ Hwf _ _ Hi) as (L1 & L2 & L3 & L4).
        assert (Hnd2 : forall zs ks, at_ f zs ks -> NoDup ks -> NoDup zs).
        { intros zs ks Hat Hks. apply NoDup_alt. intros u v z Hu Hv.
          destruct (Forall2_lookup_l _ _ _ _ _ Hat Hu) as (k & Hk & Ek).
          destruct (Forall2_lookup_l _ _ _ _ _ Hat Hv) as (k' & Hk' & Ek').
          assert (k = k') by congruence. subst. by eapply NoDup_lookup. }
        assert (Hmem : forall zs ks z, at_ f zs ks -> z ∈ zs <-> exists k, f !! z = Some k /\ k ∈ ks).
        { intros zs ks z Hat. split.
          - intros Hz. apply elem_of_list_lookup in Hz as [u Hu].
            destruct (Forall2_lookup_l _ _ _ _ _ Hat Hu) as (k & Hk & Ek). exists k. split; [done|].
            by eapply elem_of_list_lookup_2.
          - intros (k & Hz & Hk). apply elem_of_list_lookup in Hk as [u Hu].
            destruct (Forall2_lookup_r _ _ _ _ _ Hat Hu) as (z' & Hz' & Ez'). cbn in Ez'.
            assert (z' = z) by (exact (NoDup_lookup f _ _ _ Hnd Ez' Hz)). subst. by eapply elem_of_list_lookup_2. }
        split; [by eapply Hnd2|]. split; [by eapply Hnd2|]. split.
        * intros z. rewrite (Hmem _ _ _ Hout). split.
          -- intros (k & Hk & Hko). apply L3 in Hko as (c & Ec & Es). destruct (Hc z k Hk) as (c' & ? & ?).
             exists c'. split; [done|congruence].
          -- intros (c & Hz & Es). apply Hc' in Hz as (k & Hk & Ek). exists k. split; [done|]. apply L3. by exists c.
        * intros z. rewrite (Hmem _ _ _ Hin). split.
          -- intros (k & Hk & Hko). apply L4 in Hko as (c & Ec & Es). destruct (Hc z k Hk) as (c' & ? & ?).
             exists c'. split; [done|congruence].
          -- intros (c & Hz & Es). apply Hc' in Hz as (k & Hk & Ek). exists k. split; [done|]. apply L4. by exists c.
    - intros num a b e w. split.
      + intros (z & i & j & x & y & Hz & Hx & <- & Hy & <-). apply Hc' in Hz as (k & Hk & Ek).
        apply Hn' in Hx as (x' & Hx & -> & _). apply Hn' in Hy as (y' & Hy & -> & _). by exists k, i, j, x', y'.
      + intros (k & i & j & x & y & Hk & Hx & <- & Hy & <-). apply Hc2 in Hk as (z & Hz & Ek).
        apply Hn in Hx as (x' & Hx & <- & _). apply Hn in Hy as (y' & Hy & <- & _). by exists z, i, j, x', y'.
  Qed.

  Definition bare (c : conn W) : conn W := mkConn (c_inn c) 0 (c_dst c) (c_flag c) (c_weight c).

  (** the first phase *)
  Lemma copy_in_ok ip op G g :
    well_formed ip op G g ->
    exists h ins, each (copy_in g) (g_nodes g) ([], []) = Some (h, ins) /\
      let f := mjoin (n_in <$> g_nodes g) in
      length h = length f /\
      (forall z k, f !! z = Some k -> exists c, g_conns g !! k = Some c /\ h !! z = Some (None, bare c)) /\
      length ins = length (g_nodes g) /\
      (forall i n, g_nodes g !! i = Some n -> exists zs, ins !! i = Some zs /\ at_ f zs (n_in n)).
  Proof.
    intros Hwf.
    destruct (each_some (copy_in g) (fun pre s =>
      let f := mjoin (n_in <$> pre) in
      length (fst s) = length f /\
      (forall z k, f !! z = Some k -> exists c, g_conns g !! k = Some c /\ fst s !! z = Some (None, bare c)) /\
      length (snd s) = length pre /\
      (forall i n, pre !! i = Some n -> exists zs, snd s !! i = Some zs /\ at_ f zs (n_in n)))
      (g_nodes g) ([], [])) as ([h ins] & E & I); [| |by exists h, ins].
    - cbn. split; [done|]. split; [done|]. split; [done|]. done.
    - intros pre n post [h ins] El (L1 & M1 & L2 & M2). cbn [fst snd] in *.
      assert (Hn : g_nodes g !! length pre = Some n).
      { rewrite El, lookup_app_r by lia. by rewrite Nat.sub_diag. }
      destruct (wf_lists _ _ _ _ Hwf _ _ Hn) as (_ & _ & _ & Hin).
      set (f := mjoin (n_in <$> pre)) in *.
      assert (Ef : mjoin (n_in <$> pre ++ [n]) = f ++ n_in n).
      { unfold f. rewrite fmap_app. cbn [fmap list_fmap]. clear.
        induction (n_in <$> pre) as [|a l IH].
        - change (n_in n ++ mjoin [] = mjoin [] ++ n_in n). cbn. by rewrite app_nil_r.
        - change (a ++ mjoin (l ++ [n_in n]) = (a ++ mjoin l) ++ n_in n). rewrite IH. by rewrite <- app_assoc. }
      cbv zeta. rewrite Ef. clearbody f. unfold copy_in. cbn [fst snd].
      destruct (each_some (fun '(h, ins) k =>
          c ← rd (g_conns g) k;
          let i := length ins - 1 in
          l ← rd ins i; ins' ← wr ins i (l ++ [length h]);
          Some (h ++ [(None, mkConn (c_inn c) 0 i (c_flag c) (c_weight c))], ins'))
        (fun u (s : list (option nat * conn W) * list (list nat)) =>
          length (fst s) = length (f ++ u) /\
          (forall z k, (f ++ u) !! z = Some k -> exists c, g_conns g !! k = Some c /\ fst s !! z = Some (None, bare c)) /\
          exists zs, snd s = ins ++ [zs] /\ at_ (f ++ u) zs u)
        (n_in n) (h, ins ++ [[]])) as ([h' ins'] & E & L1' & M1' & zs & Ez & Hz).
      + cbn. rewrite app_nil_r. split; [done|]. split; [done|]. exists []. split; [done|]. constructor.
      + intros u k v [h1 ins1] Eu (L & M & zs & Ez & Hat). cbn [fst snd] in *. subst ins1.
        assert (Hk : k ∈ n_in n). { rewrite Eu. apply elem_of_app. right. left. }
        apply Hin in Hk as (c & Hc & Hd). rewrite (rd_lookup (g_conns g) k), Hc. cbn [mbind option_bind]. cbv zeta.
        rewrite app_length. cbn [length]. replace (length ins + 1 - 1) with (length ins) by lia.
        rewrite (rd_lookup (ins ++ [zs])), lookup_app_r, Nat.sub_diag by lia. cbn [lookup list_lookup mbind option_bind].
        rewrite wr_Some by (rewrite app_length; cbn; lia). cbn [mbind option_bind].
        eexists. split; [done|]. cbn [fst snd]. rewrite app_assoc. split.
        { rewrite !app_length in *. cbn. lia. }
        split.
        { intros z k' Hz. apply lookup_app_Some in Hz as [Hz|[Hzl Hz]].
          - destruct (M z k' Hz) as (c' & ? & ?). exists c'. split; [done|]. by apply lookup_app_l_Some.
          - apply list_lookup_singleton_Some in Hz as [Hz <-]. exists c. split; [done|].
            rewrite lookup_app_r by lia. rewrite L, Hz. cbn. unfold bare. by rewrite Hd, L2. }
        exists (zs ++ [length h1]). split.
        { rewrite insert_app_r_alt by lia. by rewrite Nat.sub_diag. }
        apply Forall2_app.
        { by apply at_mono. }
        constructor; [|constructor]. rewrite lookup_app_r by lia. by rewrite L, Nat.sub_diag.
      + exists (h', ins'). split; [exact E|]. cbn [fst snd] in *. subst ins'. split; [done|]. split; [done|].
        split; [rewrite !app_length; cbn; lia|].
        intros i m Hi. apply lookup_app_Some in Hi as [Hi|[Hil Hi]].
        * destruct (M2 i m Hi) as (zs' & Hzs & Hat). exists zs'. split; [by apply lookup_app_l_Some|]. by apply at_mono.
        * apply list_lookup_singleton_Some in Hi as [Hi <-]. exists zs. split; [|done].
          rewrite lookup_app_r by lia. by replace (i - length ins) with 0 by lia.
  Qed.

  Lemma find_in_ok (h : list (option nat * conn W)) inn zs :
    (forall z, z ∈ zs -> z < length h) ->
    (exists z x, z ∈ zs /\ h !! z = Some x /\ c_inn (snd x) = inn) ->
    exists z x, find_in h inn zs = Some z /\ z ∈ zs /\ h !! z = Some x /\ c_inn (snd x) = inn.
  Proof.
    induction zs as [|z zs IH]; intros Hl (z0 & x0 & Hin & Hx & E).
    - by apply elem_of_nil in Hin.
    - destruct (lookup_lt_is_Some_2 _ _ (Hl z ltac:(left))) as [x Hx'].
      cbn. rewrite (rd_lookup h z), Hx'. cbn. destruct (decide (c_inn (snd x) = inn)) as [He|Hne].
      + exists z, x. split; [done|]. split; [left|done].
      + destruct IH as (z1 & x1 & ? & ? & ?).
        * intros z' Hz'. apply Hl. by right.
        * apply elem_of_cons in Hin as [->|Hin]; [congruence|]. by exists z0, x0.
        * exists z1, x1. split; [done|]. split; [by right|done].
  Qed.

  (** the second phase *)
  Lemma copy_out_ok ip op G g h ins f :
    well_formed ip op G g -> NoDup f ->
    length h = length f ->
    (forall z k, f !! z = Some k -> exists c, g_conns g !! k = Some c /\ h !! z = Some (None, bare c)) ->
    (forall i n, g_nodes g !! i = Some n -> exists zs, ins !! i = Some zs /\ at_ f zs (n_in n)) ->
    exists h' outs, each (copy_out g ins) (g_nodes g) (h, []) = Some (h', outs) /\
      length h' = length f /\
      (forall z k, f !! z = Some k -> exists c, g_conns g !! k = Some c /\ h' !! z = Some (Some (c_src c), bare c)) /\
      length outs = length (g_nodes g) /\
      (forall i n, g_nodes g !! i = Some n -> exists zs, outs !! i = Some zs /\ at_ f zs (n_out n)).
  Proof.
    intros Hwf Hnd Lh Mh Mins.
    destruct (each_some (copy_out g ins) (fun pre s =>
      length (fst s) = length f /\
      (forall z k, f !! z = Some k -> exists c o, g_conns g !! k = Some c /\ fst s !! z = Some (o, bare c) /\
         (c_src c < length pre -> o = Some (c_src c))) /\
      length (snd s) = length pre /\
      (forall i n, pre !! i = Some n -> exists zs, snd s !! i = Some zs /\ at_ f zs (n_out n)))
      (g_nodes g) (h, [])) as ([h' outs] & E & L1 & M1 & L2 & M2).
    - cbn. split; [done|]. split; [|done]. intros z k Hz. destruct (Mh z k Hz) as (c & ? & ?).
      exists c, None. split; [done|]. split; [done|]. lia.
    - intros pre n post [h1 outs] El (L1 & M1 & L2 & M2). cbn [fst snd] in *.
      assert (Hn : g_nodes g !! length pre = Some n).
      { rewrite El, lookup_app_r by lia. by rewrite Nat.sub_diag. }
      destruct (wf_lists _ _ _ _ Hwf _ _ Hn) as (_ & _ & Hout & _).
      unfold copy_out. cbn [fst snd].
      destruct (each_some (fun '(h, l) k =>
          c ← rd (g_conns g) k;
          d ← rd (g_nodes g) (c_dst c);
          zs ← rd ins (index_of (n_inn d) (g_nodes g));
          z ← find_in h (c_inn c) zs;
          x ← rd h z;
          h' ← wr h z (Some (length outs), snd x);
          Some (h', l ++ [z]))
        (fun u (s : list (option nat * conn W) * list nat) =>
          length (fst s) = length f /\
          (forall z k, f !! z = Some k -> exists c o, g_conns g !! k = Some c /\ fst s !! z = Some (o, bare c) /\
             (c_src c < length pre \/ k ∈ u -> o = Some (c_src c))) /\
          at_ f (snd s) u)
        (n_out n) (h1, [])) as ([h2 l] & E & L & M & Hat).
      + cbn. split; [done|]. split; [|constructor]. intros z k Hz. destruct (M1 z k Hz) as (c & o & ? & ? & Ho).
        exists c, o. split; [done|]. split; [done|]. intros [?|Hk]; [by apply Ho|by apply elem_of_nil in Hk].
      + intros u k v [h2 l] Eu (L & M & Hat). cbn [fst snd] in *.
        assert (Hk : k ∈ n_out n). { rewrite Eu. apply elem_of_app. right. left. }
        apply Hout in Hk as (c & Hc & Hs). rewrite (rd_lookup (g_conns g)), Hc. cbn [mbind option_bind].
        destruct (wf_ends _ _ _ _ Hwf _ _ Hc) as (p & x & y & Ep & Hx & Hy & Hm).
        rewrite (rd_lookup (g_nodes g)), Hy. cbn [mbind option_bind].
        rewrite (index_of_lookup _ _ _ (wf_numbers _ _ _ _ Hwf) Hy).
        destruct (Mins _ _ Hy) as (zs & Hzs & Hatz). rewrite (rd_lookup ins), Hzs. cbn [mbind option_bind].
        destruct (wf_lists _ _ _ _ Hwf _ _ Hy) as (_ & _ & _ & Hin).
        assert (Hkin : k ∈ n_in y) by (apply Hin; by exists c).
        assert (Hzl : forall z, z ∈ zs -> z < length h2).
        { intros z Hz. apply elem_of_list_lookup in Hz as [q Hq].
          destruct (Forall2_lookup_l _ _ _ _ _ Hatz Hq) as (k' & _ & Ek). cbn in Ek. apply lookup_lt_Some in Ek. lia. }
        destruct (find_in_ok h2 (c_inn c) zs Hzl) as (z & xz & Ez & Hz & Hxz & Einn).
        { apply elem_of_list_lookup in Hkin as [q Hq].
          destruct (Forall2_lookup_r _ _ _ _ _ Hatz Hq) as (z & Hz & Ek). cbn in Ek.
          destruct (M z k Ek) as (c' & o & Hc' & Ho & _). assert (c' = c) by congruence. subst.
          exists z, (o, bare c). split; [by eapply elem_of_list_lookup_2|]. done. }
        rewrite Ez. cbn [mbind option_bind]. rewrite (rd_lookup h2), Hxz. cbn [mbind option_bind].
        rewrite wr_Some by (by apply Hzl). cbn [mbind option_bind]. eexists. split; [done|]. cbn [fst snd].
        (* the one found is the copy of k *)
        assert (Hfz : f !! z = Some k).
        { pose proof (Hzl z Hz) as Hl. rewrite L in Hl. destruct (lookup_lt_is_Some_2 _ _ Hl) as [k' Hk'].
          destruct (M z k' Hk') as (c' & o & Hc' & Ho & _). rewrite Hxz in Ho. simplify_eq. cbn in Einn.
          destruct (gene_inj _ _ _ _ _ _ _ _ Hwf Hc' Hc Einn) as [-> _]. done. }
        destruct (M z k Hfz) as (c' & o & Hc' & Ho & Hoo). rewrite Hc in Hc'. apply (inj Some) in Hc'. subst c'.
        rewrite Hxz in Ho. apply (inj Some) in Ho. subst xz. cbn [snd].
        split; [by rewrite insert_length|]. split.
        * intros z' k' Hz'. destruct (decide (z' = z)) as [->|Hne].
          -- assert (k' = k) by congruence. subst. exists c, (Some (length outs)). split; [done|].
             split; [by rewrite list_lookup_insert by (by apply Hzl)|]. intros _. f_equal. lia.
          -- destruct (M z' k' Hz') as (c' & o' & Hc' & Ho' & Hoo'). exists c', o'. split; [done|].
             split; [by rewrite list_lookup_insert_ne by done|]. intros [Hlt|Hin'].
             ++ apply Hoo'. by left.
             ++ apply Hoo'. right. apply elem_of_app in Hin' as [?|Hk']; [done|].
                apply elem_of_list_singleton in Hk'. subst. exfalso. apply Hne. by eapply NoDup_lookup.
        * apply Forall2_app; [done|]. constructor; [done|constructor].
      + rewrite E. cbn [mbind option_bind fst snd] in *. eexists. split; [done|]. cbn [fst snd].
        split; [done|]. split.
        { intros z k Hz. destruct (M z k Hz) as (c & o & Hc & Ho & Hoo). exists c, o. split; [done|]. split; [done|].
          rewrite app_length. cbn. intros Hlt. apply Hoo. destruct (decide (c_src c < length pre)); [by left|right].
          apply Hout. exists c. split; [done|]. lia. }
        split; [rewrite !app_length; cbn; lia|].
        intros i m Hi. apply lookup_app_Some in Hi as [Hi|[Hil Hi]].
        * destruct (M2 i m Hi) as (zs' & Hzs & Hat'). exists zs'. split; [by apply lookup_app_l_Some|done].
        * apply list_lookup_singleton_Some in Hi as [Hi <-]. exists l. split; [|done].
          rewrite lookup_app_r by lia. by replace (i - length outs) with 0 by lia.
    - exists h', outs. cbn [fst snd] in *. split; [done|]. split; [done|]. split; [|done].
      intros z k Hz. destruct (M1 z k Hz) as (c & o & Hc & Ho & Hoo). exists c. split; [done|]. rewrite Ho.
      rewrite Hoo; [done|].
      destruct (wf_ends _ _ _ _ Hwf _ _ Hc) as (p & x & y & Ep & Hx & Hy & Hm). by eapply lookup_lt_Some.
  Qed.

  Lemma copy_ok ip op G g :
    well_formed ip op G g ->
    exists g', copy_genome g = Some g' /\ well_formed ip op G g' /\ node_numbers g' = node_numbers g /\
      (forall num a b e w, has_gene g' num a b e w <-> has_gene g num a b e w).
  Proof.
    intros Hwf. unfold copy_genome.
    destruct (copy_in_ok ip op G g Hwf) as (h & ins & E & L1 & M1 & L2 & M2). cbv zeta in *.
    set (f := mjoin (n_in <$> g_nodes g)) in *.
    assert (Hnd : NoDup f).
    { apply NoDup_mjoin.
      - intros i l Hl. rewrite list_lookup_fmap in Hl. destruct (g_nodes g !! i) as [n|] eqn:En; [|done].
        cbn in Hl. simplify_eq. by destruct (wf_lists _ _ _ _ Hwf _ _ En) as (_ & ? & _).
      - intros i j l l' k Hi Hj Hk Hk'. rewrite list_lookup_fmap in Hi, Hj.
        destruct (g_nodes g !! i) as [n|] eqn:En; [|done]. destruct (g_nodes g !! j) as [m|] eqn:Em; [|done].
        cbn in Hi, Hj. simplify_eq.
        destruct (wf_lists _ _ _ _ Hwf _ _ En) as (_ & _ & _ & H1). destruct (wf_lists _ _ _ _ Hwf _ _ Em) as (_ & _ & _ & H2).
        apply H1 in Hk as (c & Hc & <-). apply H2 in Hk' as (c' & Hc' & <-). congruence. }
    assert (Hall : forall k, k < length (g_conns g) -> k ∈ f).
    { intros k Hk. destruct (lookup_lt_is_Some_2 _ _ Hk) as [c Hc].
      destruct (wf_ends _ _ _ _ Hwf _ _ Hc) as (p & x & y & Ep & Hx & Hy & Hm).
      destruct (wf_lists _ _ _ _ Hwf _ _ Hy) as (_ & _ & _ & H2).
      apply elem_of_list_join. exists (n_in y). split; [apply H2; by exists c|].
      apply elem_of_list_fmap. exists y. split; [done|]. by eapply elem_of_list_lookup_2. }
    clearbody f.
    rewrite E. cbn [mbind option_bind fst snd].
    destruct (copy_out_ok ip op G g h ins f Hwf Hnd L1 M1 M2) as (h' & outs & E' & L3 & M3 & L4 & M4).
    rewrite E'. cbn [mbind option_bind fst snd].
    assert (Hcs : exists cs, mapM (fun x : option nat * conn W => src ← fst x;
                 Some (mkConn (c_inn (snd x)) src (c_dst (snd x)) (c_flag (snd x))
                              (c_weight (snd x)))) h' = Some cs /\ length cs = length f /\
               forall z k, f !! z = Some k -> exists c, g_conns g !! k = Some c /\ cs !! z = Some c).
    { clear E E' M1 L1 M2 M4 L4 L2. revert h' L3 M3. clear Hnd Hall.
      induction f as [|k f IH]; intros h' L3 M3.
      - destruct h'; [|done]. exists []. done.
      - destruct h' as [|x h']; [done|].
        destruct (M3 0 k eq_refl) as (c & Hc & Hx). cbn in Hx. simplify_eq.
        destruct (IH h') as (cs & Ecs & Lcs & Mcs).
        + cbn in L3. lia.
        + intros z k' Hz. by apply (M3 (S z)).
        + exists (c :: cs). cbn. setoid_rewrite Ecs. cbn. split; [by destruct c|].
          split; [lia|]. intros [|z] k' Hz; cbn in Hz.
          * simplify_eq. by exists c.
          * by apply Mcs. }
    destruct Hcs as (cs & Ecs & Lcs & Mcs). rewrite Ecs. cbn [mbind option_bind]. eexists. split; [done|].
    apply (relabel ip op G g _ f Hwf Hnd Hall); cbn; try done.
    - rewrite zip_with_length, zip_with_length. lia.
    - intros i n Hi. destruct (M2 i n Hi) as (zi & Hzi & Hati). destruct (M4 i n Hi) as (zo & Hzo & Hato).
      exists (mkNode (n_inn n) zi zo None). split; [|done].
      rewrite lookup_zip_with, Hi. cbn. rewrite lookup_zip_with, Hzi. cbn. by rewrite Hzo.
  Qed.
End proofs.
