From Verif Require Import Base BaseLemmas Shuffle_Model Shuffle_Spec Shuffle_Proofs Neat_Model Neat_Spec.
Open Scope nat_scope.

Section proofs.
  Context {W : Type} (one : W).
  Implicit Types g : genome W.

  (** ** Lists *)

  Lemma shuffle_perm {A} rmax rand (l l' : list A) :
    rand_ok rmax rand -> shuffle_matrix rmax rand l (length l) = Some l' -> l' ≡ₚ l.
  Proof.
    intros Hr H. destruct (shuffle_matrix_ok rmax rand Hr l (length l)) as (m' & p & E & P & Al); [lia|].
    rewrite E in H. apply (inj Some) in H as ->.
    destruct (aligned_perm _ _ _ _ (le_n _) P Al) as (P1 & D1 & _).
    rewrite drop_all in D1. rewrite <- (take_drop (length l) l'), D1, app_nil_r, P1.
    by rewrite take_ge by lia.
  Qed.

  Lemma shuffle_some {A} rmax rand (l : list A) :
    rand_ok rmax rand -> exists l', shuffle_matrix rmax rand l (length l) = Some l' /\ l' ≡ₚ l.
  Proof.
    intros Hr. destruct (shuffle_matrix_ok rmax rand Hr l (length l)) as (m' & p & E & P & Al); [lia|].
    exists m'. split; [done|]. by eapply shuffle_perm.
  Qed.

  Lemma each_some {A S} (f : S -> A -> option S) (I : list A -> S -> Prop) l s :
    I [] s ->
    (forall pre x post s, l = pre ++ x :: post -> I pre s -> exists s', f s x = Some s' /\ I (pre ++ [x]) s') ->
    exists s', each f l s = Some s' /\ I l s'.
  Proof.
    intros H0 Hs.
    cut (forall post pre s, l = pre ++ post -> I pre s -> exists s', each f post s = Some s' /\ I l s').
    { intros C. by apply (C l []). }
    clear H0 s. intros post. induction post as [|x post IH]; intros pre s E Hi.
    - exists s. rewrite app_nil_r in E. subst. done.
    - destruct (Hs pre x post s E Hi) as (s1 & E1 & I1). cbn. rewrite E1. cbn.
      apply (IH (pre ++ [x])); [|done]. by rewrite <- app_assoc.
  Qed.

  Lemma each_app {A S} (f : S -> A -> option S) l1 l2 s :
    each f (l1 ++ l2) s = (s' ← each f l1 s; each f l2 s').
  Proof.
    revert s. induction l1 as [|x l1 IH]; intros s; [done|]. cbn. destruct (f s x); cbn; [apply IH|done].
  Qed.

  Lemma each_mono {A S} (f : S -> A -> option S) (R : S -> Prop) l s s' :
    each f l s = Some s' -> R s -> (forall x s s', x ∈ l -> f s x = Some s' -> R s -> R s') -> R s'.
  Proof.
    revert s. induction l as [|x l IH]; intros s E Hr Hs; cbn in E.
    - by simplify_eq.
    - destruct (f s x) as [s1|] eqn:E1; [|done]. cbn in E. apply (IH s1); [done| |].
      + eapply Hs; [left|done|done].
      + intros y ??? . eapply Hs. by right.
  Qed.

  (** ** Reading and writing *)

  Lemma rd_lookup {A} (l : list A) i : rd l i = l !! i.
  Proof. done. Qed.

  Lemma upd_conn_eq g k f c :
    g_conns g !! k = Some c ->
    upd_conn g k f = Some (mkGenome (g_nodes g) (<[k:=f c]> (g_conns g)) (g_input g) (g_output g)).
  Proof.
    intros H. unfold upd_conn. rewrite rd_lookup, H. cbn.
    rewrite wr_Some by (by eapply lookup_lt_Some). done.
  Qed.

  (** the nodes after [attach] *)
  Definition out_push k (n : nd) := mkNode (n_inn n) (n_in n) (n_out n ++ [k]) (n_bias n).
  Definition in_push k (n : nd) := mkNode (n_inn n) (n_in n ++ [k]) (n_out n) (n_bias n).

  Lemma attach_eq g inn i j b w :
    i < length (g_nodes g) -> j < length (g_nodes g) ->
    attach g inn i j b w =
      Some (mkGenome (alter (in_push (length (g_conns g))) j
                       (alter (out_push (length (g_conns g))) i (g_nodes g)))
              (g_conns g ++ [mkConn inn i j b w]) (g_input g) (g_output g)).
  Proof.
    intros Hi Hj. unfold attach. destruct (lookup_lt_is_Some_2 _ _ Hi) as [ni Ei].
    rewrite rd_lookup, Ei. cbn. rewrite wr_Some by done. cbn.
    assert (E1 : <[i:=mkNode (n_inn ni) (n_in ni) (n_out ni ++ [length (g_conns g)]) (n_bias ni)]>
              (g_nodes g) = alter (out_push (length (g_conns g))) i (g_nodes g)).
    { apply list_eq. intros q. destruct (decide (q = i)) as [->|Hq].
      - rewrite list_lookup_insert by done. rewrite list_lookup_alter, Ei. done.
      - rewrite list_lookup_insert_ne, list_lookup_alter_ne by done. done. }
    rewrite E1. set (ns := alter _ i _).
    assert (Hj' : j < length ns) by (unfold ns; by rewrite alter_length).
    destruct (lookup_lt_is_Some_2 _ _ Hj') as [nj Ej]. rewrite rd_lookup, Ej. cbn.
    rewrite wr_Some by done. cbn. do 2 f_equal.
    apply list_eq. intros q. destruct (decide (q = j)) as [->|Hq].
    - rewrite list_lookup_insert by done. rewrite list_lookup_alter, Ej. done.
    - rewrite list_lookup_insert_ne, list_lookup_alter_ne by done. done.
  Qed.

  Lemma attach_node g k i j q n :
    alter (in_push k) j (alter (out_push k) i (g_nodes g)) !! q = Some n ->
    exists n0, g_nodes g !! q = Some n0 /\ n_inn n = n_inn n0 /\ n_bias n = n_bias n0 /\
      n_out n = (if decide (q = i) then n_out n0 ++ [k] else n_out n0) /\
      n_in n = (if decide (q = j) then n_in n0 ++ [k] else n_in n0).
  Proof.
    intros H. destruct (decide (q = j)) as [->|Hj].
    - rewrite list_lookup_alter in H. destruct (decide (j = i)) as [->|Hi].
      + rewrite list_lookup_alter in H. destruct (g_nodes g !! i) as [n0|]; [|done].
        cbn in H. simplify_eq. exists n0. done.
      + rewrite list_lookup_alter_ne in H by done. destruct (g_nodes g !! j) as [n0|]; [|done].
        cbn in H. simplify_eq. exists n0. done.
    - rewrite list_lookup_alter_ne in H by done. destruct (decide (q = i)) as [->|Hi].
      + rewrite list_lookup_alter in H. destruct (g_nodes g !! i) as [n0|]; [|done].
        cbn in H. simplify_eq. exists n0. done.
      + rewrite list_lookup_alter_ne in H by done. exists n. done.
  Qed.

  Lemma attach_node' g k i j q n0 :
    g_nodes g !! q = Some n0 ->
    exists n, alter (in_push k) j (alter (out_push k) i (g_nodes g)) !! q = Some n /\
      n_inn n = n_inn n0.
  Proof.
    intros H. destruct (decide (q = j)) as [->|Hj].
    - rewrite list_lookup_alter. destruct (decide (j = i)) as [->|Hi].
      + rewrite list_lookup_alter, H. eexists. done.
      + rewrite list_lookup_alter_ne, H by done. eexists. done.
    - rewrite list_lookup_alter_ne by done. destruct (decide (q = i)) as [->|Hi].
      + rewrite list_lookup_alter, H. eexists. done.
      + rewrite list_lookup_alter_ne by done. exists n0. done.
  Qed.

  Lemma attach_numbers g k i j :
    n_inn <$> alter (in_push k) j (alter (out_push k) i (g_nodes g)) = n_inn <$> g_nodes g.
  Proof.
    apply list_eq. intros q. rewrite !list_lookup_fmap.
    destruct (g_nodes g !! q) as [n0|] eqn:E.
    - destruct (attach_node' g k i j q n0 E) as (n & -> & H). cbn. by rewrite H.
    - destruct (alter _ j _ !! q) as [n|] eqn:E2; [|done].
      apply attach_node in E2 as (n0 & E3 & _). congruence.
  Qed.

  (** ** The operations keep genomes well formed *)

  Definition extends (G G' : globals) : Prop :=
    gl_nodes G <= gl_nodes G' /\ (exists t, gl_mconns G' = gl_mconns G ++ t) /\
    forall p s, gl_dict G !! p = Some s -> s <> 0 -> gl_dict G' !! p = Some s.

  Lemma extends_refl G : extends G G.
  Proof. split; [done|]. split; [|done]. exists []. by rewrite app_nil_r. Qed.

  Lemma wf_extend ip op G G' g :
    extends G G' -> well_formed ip op G g -> well_formed ip op G' g.
  Proof.
    intros [Hn [[t Ht] _]] [A B C D E F K L]. constructor; try done.
    - intros a Ha. specialize (E a Ha). lia.
    - intros k c Hk. destruct (K k c Hk) as (p & x & y & ? & ? & ? & Hp).
      exists p, x, y. repeat split; try done. rewrite Ht. by apply lookup_app_l_Some.
  Qed.

  Lemma wf_upd ip op G g k f c :
    well_formed ip op G g -> g_conns g !! k = Some c ->
    c_inn (f c) = c_inn c -> c_src (f c) = c_src c -> c_dst (f c) = c_dst c ->
    well_formed ip op G (mkGenome (g_nodes g) (<[k:=f c]> (g_conns g)) (g_input g) (g_output g)).
  Proof.
    intros [A B C D E F K L] Hk Hi Hs Hd.
    assert (Hlk : forall q c', <[k:=f c]> (g_conns g) !! q = Some c' ->
              exists c0, g_conns g !! q = Some c0 /\ c_inn c' = c_inn c0 /\ c_src c' = c_src c0 /\
                c_dst c' = c_dst c0).
    { intros q c' H. destruct (decide (q = k)) as [->|Hq].
      - rewrite list_lookup_insert in H by (by eapply lookup_lt_Some). simplify_eq. by exists c.
      - rewrite list_lookup_insert_ne in H by done. by exists c'. }
    assert (Hlk' : forall q c0, g_conns g !! q = Some c0 ->
              exists c', <[k:=f c]> (g_conns g) !! q = Some c' /\ c_src c' = c_src c0 /\
                c_dst c' = c_dst c0).
    { intros q c0 H. destruct (decide (q = k)) as [->|Hq].
      - exists (f c). rewrite list_lookup_insert by (by eapply lookup_lt_Some).
        assert (c0 = c) by congruence. subst. done.
      - exists c0. rewrite list_lookup_insert_ne by done. done. }
    constructor; cbn; try done.
    - rewrite list_fmap_insert, Hi. rewrite list_insert_id; [done|].
      by rewrite list_lookup_fmap, Hk.
    - intros q c' H. destruct (Hlk q c' H) as (c0 & H0 & -> & -> & ->). by apply (K q).
    - intros i n Hn. destruct (L i n Hn) as (L1 & L2 & L3 & L4). split; [done|]. split; [done|]. split.
      + intros q. rewrite L3. split.
        * intros (c0 & H0 & <-). destruct (Hlk' q c0 H0) as (c' & ? & <- & _). by exists c'.
        * intros (c' & H' & <-). destruct (Hlk q c' H') as (c0 & ? & _ & -> & _). by exists c0.
      + intros q. rewrite L4. split.
        * intros (c0 & H0 & <-). destruct (Hlk' q c0 H0) as (c' & ? & _ & <-). by exists c'.
        * intros (c' & H' & <-). destruct (Hlk q c' H') as (c0 & ? & _ & _ & ->). by exists c0.
  Qed.

  Lemma wf_add_node ip op G g s :
    well_formed ip op G g -> s ∉ node_numbers g -> 1 <= s <= gl_nodes G ->
    well_formed ip op G (add_node g s).
  Proof.
    intros [A B C D E F K L] Hs Hr. constructor; cbn; try done.
    - intros i Hi. destruct (C i Hi) as (n & Hn & ?). exists n. split; [|done].
      by apply lookup_app_l_Some.
    - unfold node_numbers in *. cbn. rewrite fmap_app. cbn. apply NoDup_app. split; [done|]. split.
      + intros x Hx Hx'. apply elem_of_list_singleton in Hx'. by subst.
      + apply NoDup_singleton.
    - unfold node_numbers in *. cbn. rewrite fmap_app. intros a. rewrite elem_of_app.
      intros [Ha|Ha]; [by apply E|]. cbn in Ha. apply elem_of_list_singleton in Ha. by subst.
    - intros k c Hk. destruct (K k c Hk) as (p & x & y & ? & ? & ? & ?). exists p, x, y.
      split; [done|]. split; [by apply lookup_app_l_Some|]. split; [by apply lookup_app_l_Some|done].
    - intros i n Hn. apply lookup_app_Some in Hn as [Hn|[Hi Hn]]; [by apply L|].
      apply list_lookup_singleton_Some in Hn as [Hi2 <-]. cbn.
      split; [constructor|]. split; [constructor|].
      assert (Hbad : forall k c, g_conns g !! k = Some c -> c_src c <> i /\ c_dst c <> i).
      { intros k c Hk. destruct (K k c Hk) as (p & x & y & ? & Hx & Hy & ?).
        apply lookup_lt_Some in Hx, Hy. lia. }
      split; intros k; split; try (intros H; by apply elem_of_nil in H);
        intros (c & Hc & Hci); destruct (Hbad k c Hc); done.
  Qed.

  Lemma wf_attach ip op G g p i j x y b w :
    well_formed ip op G g ->
    g_nodes g !! i = Some x -> g_nodes g !! j = Some y ->
    gl_mconns G !! p = Some (n_inn x, n_inn y) ->
    S p ∉ c_inn <$> g_conns g ->
    exists g', attach g (S p) i j b w = Some g' /\ well_formed ip op G g'.
  Proof.
    intros Hwf Hx Hy Hp Hnew.
    pose proof (lookup_lt_Some _ _ _ Hx) as Hi. pose proof (lookup_lt_Some _ _ _ Hy) as Hj.
    rewrite attach_eq by done. eexists. split; [done|].
    destruct Hwf as [A B C D E F K L]. set (k := length (g_conns g)) in *.
    constructor; cbn; try done.
    - intros q Hq. destruct (C q Hq) as (n & Hn & Hnn).
      destruct (attach_node' g k i j q n Hn) as (n' & ? & ?). exists n'. split; [done|lia].
    - unfold node_numbers in *. cbn. by rewrite attach_numbers.
    - unfold node_numbers in *. cbn. by rewrite attach_numbers.
    - rewrite fmap_app. apply NoDup_app. split; [done|]. split; [|apply NoDup_singleton].
      intros z Hz Hz'. cbn in Hz'. apply elem_of_list_singleton in Hz'. by subst.
    - intros q c Hc. apply lookup_app_Some in Hc as [Hc|[Hq Hc]].
      + destruct (K q c Hc) as (p' & x' & y' & ? & Hx' & Hy' & Hm).
        destruct (attach_node' g k i j _ _ Hx') as (x2 & ? & E1).
        destruct (attach_node' g k i j _ _ Hy') as (y2 & ? & E2).
        exists p', x2, y2. rewrite E1, E2. done.
      + apply list_lookup_singleton_Some in Hc as [_ <-]. cbn.
        destruct (attach_node' g k i j _ _ Hx) as (x2 & ? & E1).
        destruct (attach_node' g k i j _ _ Hy) as (y2 & ? & E2).
        exists p, x2, y2. rewrite E1, E2. done.
    - intros q n Hn. apply attach_node in Hn as (n0 & Hn0 & _ & _ & Ho & Hin).
      destruct (L q n0 Hn0) as (L1 & L2 & L3 & L4).
      assert (Hko : k ∉ n_out n0).
      { rewrite L3. intros (c & Hc & _). apply lookup_lt_Some in Hc. unfold k in Hc. lia. }
      assert (Hki : k ∉ n_in n0).
      { rewrite L4. intros (c & Hc & _). apply lookup_lt_Some in Hc. unfold k in Hc. lia. }
      rewrite Ho, Hin.
      assert (Happ : forall (P : conn W -> Prop) z, (exists c, (g_conns g ++ [mkConn (S p) i j b w]) !! z = Some c /\ P c) <->
                (exists c, g_conns g !! z = Some c /\ P c) \/ (z = k /\ P (mkConn (S p) i j b w))).
      { intros P z. split.
        - intros (c & Hc & HP). apply lookup_app_Some in Hc as [Hc|[Hz Hc]].
          + left. by exists c.
          + apply list_lookup_singleton_Some in Hc as [Hz2 <-]. right. split; [unfold k; lia|done].
        - intros [(c & Hc & HP)|[-> HP]].
          + exists c. split; [by apply lookup_app_l_Some|done].
          + eexists. split; [|done]. unfold k. rewrite lookup_app_r by lia. by rewrite Nat.sub_diag. }
      split; [|split; [|split]].
      + destruct (decide (q = i)); [|done]. apply NoDup_app. split; [done|]. split; [|apply NoDup_singleton].
        intros z Hz Hz'. apply elem_of_list_singleton in Hz'. by subst.
      + destruct (decide (q = j)); [|done]. apply NoDup_app. split; [done|]. split; [|apply NoDup_singleton].
        intros z Hz Hz'. apply elem_of_list_singleton in Hz'. by subst.
      + intros z. rewrite (Happ (fun c => c_src c = q)). cbn. rewrite <- L3.
        destruct (decide (q = i)) as [->|Hq].
        * rewrite elem_of_app, elem_of_list_singleton. naive_solver.
        * naive_solver.
      + intros z. rewrite (Happ (fun c => c_dst c = q)). cbn. rewrite <- L4.
        destruct (decide (q = j)) as [->|Hq].
        * rewrite elem_of_app, elem_of_list_singleton. naive_solver.
        * naive_solver.
  Qed.

  Lemma wf_init ip op : well_formed ip op (init_globals ip op) (init_genome (W := W) ip op).
  Proof.
    constructor; cbn; try done.
    - intros i Hi. exists (mkNode (i + 1) [] [] None). split; [|done].
      rewrite list_lookup_fmap, lookup_seq_lt by done. done.
    - unfold node_numbers. cbn. rewrite <- list_fmap_compose. apply NoDup_fmap_2.
      + intros a b. cbn. lia.
      + apply NoDup_seq.
    - unfold node_numbers. cbn. rewrite <- list_fmap_compose. intros a.
      rewrite elem_of_list_fmap. intros (i & -> & Hi). apply elem_of_seq in Hi. cbn. lia.
    - apply NoDup_nil_2.
    - intros i n Hn. rewrite list_lookup_fmap in Hn.
      destruct (seq 0 (ip + op) !! i) as [v|] eqn:E; [|done]. cbn in Hn. simplify_eq. cbn.
      repeat split; try apply NoDup_nil_2; try (intros H; by apply elem_of_nil in H); by intros (c & ? & _).
  Qed.

  Lemma consistent_init ip op : consistent ip op (init_globals ip op).
  Proof.
    constructor; cbn; try done.
    - by rewrite replicate_length.
    - apply NoDup_nil_2.
  Qed.

  (** ** Enumerating the connections *)

  Lemma gene_position ip op G g k c :
    consistent ip op G -> well_formed ip op G g -> g_conns g !! k = Some c ->
    exists p, c_inn c = S p /\ p < gl_conns G.
  Proof.
    intros HG Hwf Hk. destruct (wf_ends _ _ _ _ Hwf k c Hk) as (p & x & y & ? & _ & _ & Hp).
    exists p. split; [done|]. apply lookup_lt_Some in Hp. by rewrite (co_conns _ _ _ HG) in Hp.
  Qed.

  Lemma gene_inj ip op G g k k' c c' :
    well_formed ip op G g -> g_conns g !! k = Some c -> g_conns g !! k' = Some c' ->
    c_inn c = c_inn c' -> k = k' /\ c = c'.
  Proof.
    intros Hwf Hk Hk' E.
    assert (k = k').
    { eapply (NoDup_lookup _ k k' (c_inn c) (wf_genes _ _ _ _ Hwf)).
      - by rewrite list_lookup_fmap, Hk.
      - rewrite list_lookup_fmap, Hk'. cbn. by rewrite E. }
    split; [done|]. congruence.
  Qed.

  Definition collected g nc (done_ : list nat) (s : list bool * list nat) : Prop :=
    length (fst s) = nc /\ NoDup (snd s) /\
    (forall k, k ∈ snd s <-> k ∈ done_) /\
    (forall k, k ∈ snd s -> k < length (g_conns g)) /\
    (forall p, fst s !! p = Some true <-> exists k c, k ∈ snd s /\ g_conns g !! k = Some c /\ c_inn c = S p).

  Lemma collect_step ip op G g k d s :
    consistent ip op G -> well_formed ip op G g -> k < length (g_conns g) ->
    collected g (gl_conns G) d s ->
    exists s', collect g (gl_conns G) s k = Some s' /\ collected g (gl_conns G) (d ++ [k]) s'.
  Proof.
    intros HG Hwf Hk (H1 & H2 & H3 & H4 & H5).
    destruct (lookup_lt_is_Some_2 _ _ Hk) as [c Hc]. unfold collect. rewrite rd_lookup, Hc. cbn.
    destruct (gene_position _ _ _ _ _ _ HG Hwf Hc) as (p & Ep & Hp). rewrite Ep. cbn.
    assert (Hp' : p < length (fst s)) by lia.
    destruct (lookup_lt_is_Some_2 _ _ Hp') as [b Hb]. rewrite rd_lookup, Hb. cbn. destruct b.
    - exists s. split; [done|]. apply H5 in Hb as (k' & c' & Hk' & Hc' & E').
      destruct (gene_inj _ _ _ _ _ _ _ _ Hwf Hc Hc' ltac:(congruence)) as [-> ->].
      repeat split; try done; try apply H5.
      + rewrite elem_of_app, <- H3. tauto.
      + rewrite elem_of_app, elem_of_list_singleton, <- H3. intros [?| ->]; done.
    - rewrite wr_Some by done. cbn.
      assert (Hnk : k ∉ snd s).
      { intros Hin. assert (fst s !! p = Some true) by (apply H5; eauto). congruence. }
      assert (Hlen : length (snd s) < gl_conns G).
      { set (num := fun k : nat => match g_conns g !! k with Some c => c_inn c - 1 | None => 0 end).
        assert (Hnd : NoDup (num <$> (snd s ++ [k]))).
        { apply NoDup_fmap_2_strong; [|].
          - intros u v Hu Hv E.
            assert (Hcc : forall u, u ∈ snd s ++ [k] -> exists c p, g_conns g !! u = Some c /\ c_inn c = S p /\ num u = p).
            { intros u' Hu'. apply elem_of_app in Hu' as [Hu'|Hu'].
              - apply H4 in Hu'. destruct (lookup_lt_is_Some_2 _ _ Hu') as [cu Hcu].
                destruct (gene_position _ _ _ _ _ _ HG Hwf Hcu) as (pu & Epu & _).
                exists cu, pu. repeat split; try done. unfold num. rewrite Hcu. lia.
              - apply elem_of_list_singleton in Hu'. subst. exists c, p. repeat split; try done.
                unfold num. rewrite Hc. lia. }
            destruct (Hcc u Hu) as (cu & pu & Eu1 & Eu2 & Eu3).
            destruct (Hcc v Hv) as (cv & pv & Ev1 & Ev2 & Ev3).
            destruct (gene_inj _ _ _ _ _ _ _ _ Hwf Eu1 Ev1 ltac:(lia)); done.
          - apply NoDup_app. split; [done|]. split; [|apply NoDup_singleton].
            intros z Hz Hz'. apply elem_of_list_singleton in Hz'. by subst. }
        assert (Hsub : num <$> (snd s ++ [k]) ⊆+ seq 0 (gl_conns G)).
        { apply NoDup_submseteq; [done|]. intros z Hz. apply elem_of_list_fmap in Hz as (u & -> & Hu).
          assert (exists c, g_conns g !! u = Some c) as [cu Hcu].
          { apply elem_of_app in Hu as [Hu|Hu].
            - apply H4 in Hu. by apply lookup_lt_is_Some_2.
            - apply elem_of_list_singleton in Hu. subst. by exists c. }
          destruct (gene_position _ _ _ _ _ _ HG Hwf Hcu) as (pu & Epu & ?).
          unfold num. rewrite Hcu. apply elem_of_seq. lia. }
        apply submseteq_length in Hsub. rewrite fmap_length, app_length, seq_length in Hsub. cbn in Hsub. lia. }
      rewrite decide_True by done. eexists. split; [done|]. unfold collected. cbn.
      split; [by rewrite insert_length|]. split.
      { apply NoDup_app. split; [done|]. split; [|apply NoDup_singleton].
        intros z Hz Hz'. apply elem_of_list_singleton in Hz'. by subst. }
      split. { intros z. rewrite !elem_of_app, H3. done. }
      split. { intros z. rewrite elem_of_app, elem_of_list_singleton. intros [?| ->]; [by apply H4|done]. }
      intros q. destruct (decide (q = p)) as [->|Hq].
      + rewrite list_lookup_insert by done. split; [|done]. intros _. exists k, c.
        split; [|done]. apply elem_of_app. right. by apply elem_of_list_singleton.
      + rewrite list_lookup_insert_ne by done. rewrite H5. split.
        * intros (k' & c' & ? & ?). exists k', c'. split; [|done]. apply elem_of_app. by left.
        * intros (k' & c' & Hk' & Hc' & E'). apply elem_of_app in Hk' as [Hk'|Hk'].
          -- by exists k', c'.
          -- apply elem_of_list_singleton in Hk'. subst. assert (c' = c) by congruence. subst.
             rewrite Ep in E'. congruence.
  Qed.

  Lemma get_connections_ok ip op G g :
    consistent ip op G -> well_formed ip op G g ->
    exists ks, get_connections g (gl_conns G) = Some ks /\ ks ≡ₚ seq 0 (length (g_conns g)).
  Proof.
    intros HG Hwf. unfold get_connections.
    assert (Hall : exists s, each (fun s n => s1 ← each (collect g (gl_conns G)) (n_out n) s;
                       each (collect g (gl_conns G)) (n_in n) s1)
              (g_nodes g) (replicate (gl_conns G) false, []) = Some s /\
              collected g (gl_conns G) (mjoin ((fun n => n_out n ++ n_in n) <$> g_nodes g)) s).
    { apply (each_some _ (fun pre s => collected g (gl_conns G) (mjoin ((fun n => n_out n ++ n_in n) <$> pre)) s)).
      - split; [cbn; by rewrite replicate_length|]. split; [apply NoDup_nil_2|]. split; [done|].
        split; [intros k H; by apply elem_of_nil in H|]. intros p. cbn. split.
        + intros H. apply lookup_replicate in H as [? _]. done.
        + intros (k & c & H & _). by apply elem_of_nil in H.
      - intros pre n post s E Hc.
        assert (Hn : g_nodes g !! length pre = Some n).
        { rewrite E, lookup_app_r by lia. by rewrite Nat.sub_diag. }
        destruct (wf_lists _ _ _ _ Hwf _ _ Hn) as (_ & _ & Ho & Hi).
        rewrite fmap_app. cbn.
        assert (Hj : mjoin (((fun n => n_out n ++ n_in n) <$> pre) ++ [n_out n ++ n_in n]) =
                     (mjoin ((fun n => n_out n ++ n_in n) <$> pre) ++ n_out n) ++ n_in n).
        { clear. induction ((fun n => n_out n ++ n_in n) <$> pre) as [|a l IH].
          - cbn. by rewrite app_nil_r.
          - change (a ++ mjoin (l ++ [n_out n ++ n_in n]) = ((a ++ mjoin l) ++ n_out n) ++ n_in n).
            rewrite IH. by rewrite <- !app_assoc. }
        rewrite Hj. set (d := mjoin ((fun n => n_out n ++ n_in n) <$> pre)) in *. clearbody d.
        destruct (each_some (collect g (gl_conns G)) (fun l s => collected g (gl_conns G) (d ++ l) s)
                    (n_out n) s) as (s1 & E1 & I1).
        { by rewrite app_nil_r. }
        { intros l k l' s0 El Il. destruct (collect_step ip op G g k (d ++ l) s0) as (s0' & ? & ?);
            [done|done| |done|].
          - assert (Hin : k ∈ n_out n). { rewrite El. apply elem_of_app. right. left. }
            apply Ho in Hin as (c & Hc' & _). by eapply lookup_lt_Some.
          - exists s0'. split; [done|]. by rewrite app_assoc. }
        rewrite E1. cbn.
        destruct (each_some (collect g (gl_conns G)) (fun l s => collected g (gl_conns G) ((d ++ n_out n) ++ l) s)
                    (n_in n) s1) as (s2 & E2 & I2).
        { by rewrite app_nil_r. }
        { intros l k l' s0 El Il. destruct (collect_step ip op G g k ((d ++ n_out n) ++ l) s0) as (s0' & ? & ?);
            [done|done| |done|].
          - assert (Hin : k ∈ n_in n). { rewrite El. apply elem_of_app. right. left. }
            apply Hi in Hin as (c & Hc' & _). by eapply lookup_lt_Some.
          - exists s0'. split; [done|]. by rewrite app_assoc. }
        exists s2. done. }
    destruct Hall as (s & -> & H1 & H2 & H3 & H4 & H5). cbn. eexists. split; [done|].
    apply NoDup_Permutation; [done|apply NoDup_seq|]. intros k. rewrite elem_of_seq. split.
    - intros Hk. apply H4 in Hk. lia.
    - intros [_ Hk]. apply H3. destruct (lookup_lt_is_Some_2 _ _ Hk) as [c Hc].
      destruct (wf_ends _ _ _ _ Hwf _ _ Hc) as (p & x & y & _ & Hx & _ & _).
      destruct (wf_lists _ _ _ _ Hwf _ _ Hx) as (_ & _ & Ho & _).
      apply elem_of_list_join. exists (n_out x ++ n_in x). split.
      + apply elem_of_app. left. apply Ho. by exists c.
      + apply elem_of_list_fmap. exists x. split; [done|]. by eapply elem_of_list_lookup_2.
  Qed.
End proofs.
