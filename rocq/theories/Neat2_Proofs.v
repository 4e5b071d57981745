From Verif Require Import Base BaseLemmas Shuffle_Model Shuffle_Spec Shuffle_Proofs Neat_Model Neat_Spec Neat_Proofs.
Open Scope nat_scope.

Section proofs.
  Context {W : Type} (one : W).
  Implicit Types g : genome W.

  (** ** Genes *)

  Lemma has_gene_intro g k c x y :
    g_conns g !! k = Some c -> g_nodes g !! c_src c = Some x -> g_nodes g !! c_dst c = Some y ->
    has_gene g (c_inn c) (n_inn x) (n_inn y) (c_flag c) (c_weight c).
  Proof. intros. exists k, (c_src c), (c_dst c), x, y. by destruct c. Qed.

  Lemma has_gene_unique ip op G g num a b e w a' b' e' w' :
    well_formed ip op G g -> has_gene g num a b e w -> has_gene g num a' b' e' w' ->
    a = a' /\ b = b' /\ e = e' /\ w = w'.
  Proof.
    intros Hwf (k & i & j & x & y & Hk & Hx & <- & Hy & <-) (k' & i' & j' & x' & y' & Hk' & Hx' & <- & Hy' & <-).
    destruct (gene_inj _ _ _ _ _ _ _ _ Hwf Hk Hk' eq_refl) as [-> E]. simplify_eq. done.
  Qed.

  Lemma has_gene_number ip op G g num a b e w :
    well_formed ip op G g -> has_gene g num a b e w ->
    exists p, num = S p /\ gl_mconns G !! p = Some (a, b) /\ a ∈ node_numbers g /\ b ∈ node_numbers g.
  Proof.
    intros Hwf (k & i & j & x & y & Hk & Hx & <- & Hy & <-).
    destruct (wf_ends _ _ _ _ Hwf _ _ Hk) as (p & x' & y' & E & Hx' & Hy' & Hp). cbn in *. simplify_eq.
    exists p. split; [done|]. split; [done|]. unfold node_numbers.
    split; apply elem_of_list_fmap; eexists; (split; [done|by eapply elem_of_list_lookup_2]).
  Qed.

  Lemma has_gene_upd g k f c ns :
    g_conns g !! k = Some c -> c_src (f c) = c_src c -> c_dst (f c) = c_dst c ->
    NoDup (c_inn <$> g_conns g) -> c_inn (f c) = c_inn c -> g_nodes g = ns ->
    forall num a b e w,
    has_gene (mkGenome ns (<[k:=f c]> (g_conns g)) (g_input g) (g_output g)) num a b e w <->
      (num <> c_inn c /\ has_gene g num a b e w) \/
      (num = c_inn c /\ e = c_flag (f c) /\ w = c_weight (f c) /\
       has_gene g num a b (c_flag c) (c_weight c)).
  Proof.
    intros Hk Hs Hd Hnd Hi <- num a b e w. split.
    - intros (k' & i & j & x & y & Hk' & Hx & <- & Hy & <-). cbn in *.
      destruct (decide (k' = k)) as [->|Hne].
      + rewrite list_lookup_insert in Hk' by (by eapply lookup_lt_Some). right. simplify_eq.
        destruct (f c) as [fi fs fd ff fw] eqn:Ef. cbn in *. simplify_eq.
        repeat split; try done. exists k, (c_src c), (c_dst c), x, y. by destruct c.
      + rewrite list_lookup_insert_ne in Hk' by done. left. split.
        * intros ->. apply Hne. apply (NoDup_lookup _ _ _ (c_inn c) Hnd); by rewrite list_lookup_fmap, ?Hk, ?Hk'.
        * by exists k', i, j, x, y.
    - intros [[Hne (k' & i & j & x & y & Hk' & Hx & <- & Hy & <-)]|(-> & -> & -> & H)].
      + exists k', i, j, x, y. cbn. split; [|done]. rewrite list_lookup_insert_ne; [done|].
        intros ->. rewrite Hk in Hk'. by simplify_eq.
      + destruct H as (k' & i & j & x & y & Hk' & Hx & <- & Hy & <-).
        assert (k' = k) as ->.
        { apply (NoDup_lookup _ _ _ (c_inn c) Hnd); by rewrite list_lookup_fmap, ?Hk, ?Hk'. }
        exists k, i, j, x, y. cbn. split; [|done].
        rewrite list_lookup_insert by (by eapply lookup_lt_Some). rewrite Hk in Hk'.
        destruct (f c) as [fi fs fd ff fw] eqn:Ef. destruct c. cbn in *. by simplify_eq.
  Qed.

  Lemma has_gene_add_node ip op G g s num a b e w :
    well_formed ip op G g -> has_gene (add_node g s) num a b e w <-> has_gene g num a b e w.
  Proof.
    intros Hwf. split.
    - intros (k & i & j & x & y & Hk & Hx & <- & Hy & <-). cbn in *.
      destruct (wf_ends _ _ _ _ Hwf _ _ Hk) as (p & x' & y' & E & Hx' & Hy' & Hp). cbn in *.
      rewrite lookup_app_l in Hx, Hy by (by eapply lookup_lt_Some). by exists k, i, j, x, y.
    - intros (k & i & j & x & y & Hk & Hx & <- & Hy & <-). exists k, i, j, x, y. cbn.
      repeat split; try done; by apply lookup_app_l_Some.
  Qed.

  Lemma attach_ok ip op G g p i j x y b w :
    well_formed ip op G g ->
    g_nodes g !! i = Some x -> g_nodes g !! j = Some y ->
    gl_mconns G !! p = Some (n_inn x, n_inn y) ->
    S p ∉ c_inn <$> g_conns g ->
    exists g', attach g (S p) i j b w = Some g' /\ well_formed ip op G g' /\
      node_numbers g' = node_numbers g /\
      (c_inn <$> g_conns g') = (c_inn <$> g_conns g) ++ [S p] /\
      (exists t, g_conns g' = g_conns g ++ t) /\
      (forall num a' b' e w', has_gene g' num a' b' e w' <->
        has_gene g num a' b' e w' \/
        (num = S p /\ a' = n_inn x /\ b' = n_inn y /\ e = b /\ w' = w)).
  Proof.
    intros Hwf Hx Hy Hp Hnew.
    pose proof (lookup_lt_Some _ _ _ Hx) as Hi. pose proof (lookup_lt_Some _ _ _ Hy) as Hj.
    destruct (wf_attach ip op G g p i j x y b w Hwf Hx Hy Hp Hnew) as (g' & E & Hwf').
    exists g'. split; [done|]. split; [done|]. rewrite attach_eq in E by done.
    apply (inj Some) in E. subst g'. unfold node_numbers. cbn. split; [by rewrite attach_numbers|].
    split; [by rewrite fmap_app|]. split; [by eexists|].
    intros num a' b' e w'. split.
    - intros (k & i' & j' & x' & y' & Hk & Hx' & <- & Hy' & <-). cbn in *.
      apply attach_node in Hx' as (x0 & Hx0 & -> & _). apply attach_node in Hy' as (y0 & Hy0 & -> & _).
      apply lookup_app_Some in Hk as [Hk|[_ Hk]].
      + left. by exists k, i', j', x0, y0.
      + apply list_lookup_singleton_Some in Hk as [_ Hk]. simplify_eq. by right.
    - intros [(k & i' & j' & x' & y' & Hk & Hx' & <- & Hy' & <-)|(-> & -> & -> & -> & ->)].
      + destruct (attach_node' g (length (g_conns g)) i j _ _ Hx') as (x2 & ? & E1).
        destruct (attach_node' g (length (g_conns g)) i j _ _ Hy') as (y2 & ? & E2).
        exists k, i', j', x2, y2. cbn. rewrite E1, E2. repeat split; try done. by apply lookup_app_l_Some.
      + destruct (attach_node' g (length (g_conns g)) i j _ _ Hx) as (x2 & ? & E1).
        destruct (attach_node' g (length (g_conns g)) i j _ _ Hy) as (y2 & ? & E2).
        exists (length (g_conns g)), i, j, x2, y2. cbn. rewrite E1, E2. repeat split; try done.
        rewrite lookup_app_r by lia. by rewrite Nat.sub_diag.
  Qed.

  Lemma upd_ok ip op G g k f c :
    well_formed ip op G g -> g_conns g !! k = Some c ->
    c_inn (f c) = c_inn c -> c_src (f c) = c_src c -> c_dst (f c) = c_dst c ->
    exists g', upd_conn g k f = Some g' /\ well_formed ip op G g' /\ g_nodes g' = g_nodes g /\
      g_conns g' = <[k:=f c]> (g_conns g) /\ (c_inn <$> g_conns g') = (c_inn <$> g_conns g) /\
      (forall num a b e w, has_gene g' num a b e w <->
        (num <> c_inn c /\ has_gene g num a b e w) \/
        (num = c_inn c /\ e = c_flag (f c) /\ w = c_weight (f c) /\
         has_gene g num a b (c_flag c) (c_weight c))).
  Proof.
    intros Hwf Hk Hi Hs Hd. rewrite (upd_conn_eq _ _ _ _ Hk). eexists. split; [done|].
    split; [by apply wf_upd|]. split; [done|]. split; [done|]. split.
    - cbn. rewrite list_fmap_insert, Hi. rewrite list_insert_id; [done|]. by rewrite list_lookup_fmap, Hk.
    - apply has_gene_upd; try done. by apply (wf_genes _ _ _ _ Hwf).
  Qed.

  Lemma index_of_lookup (l : list nd) i n :
    NoDup (n_inn <$> l) -> l !! i = Some n -> index_of (n_inn n) l = i.
  Proof.
    revert i. induction l as [|m l IH]; intros i Hnd Hi; [done|]. cbn in *.
    apply list.NoDup_cons in Hnd as [Hm Hnd]. destruct i as [|i]; cbn in Hi.
    - simplify_eq. by rewrite decide_True.
    - rewrite decide_False.
      + by rewrite (IH i).
      + intros E. apply Hm. rewrite E. apply elem_of_list_fmap. exists n. split; [done|].
        by eapply elem_of_list_lookup_2.
  Qed.

  (** ** Splitting *)

  (** the connection can be split: enabled, and the node made by its split is not here yet *)
  Definition can_split G g (c : conn W) : Prop :=
    c_flag c = true /\
    exists p s, c_inn c = S p /\ gl_dict G !! p = Some s /\ (s = 0 \/ s ∉ node_numbers g).

  Lemma splittable_spec ip op G g k c :
    consistent ip op G -> well_formed ip op G g -> g_conns g !! k = Some c ->
    exists b, splittable G g k = Some b /\ (b = true <-> can_split G g c).
  Proof.
    intros HG Hwf Hk. unfold splittable. rewrite rd_lookup, Hk. cbn.
    destruct (c_flag c) eqn:Ef.
    2:{ exists false. split; [done|]. split; [done|]. intros [H _]. congruence. }
    destruct (gene_position _ _ _ _ _ _ HG Hwf Hk) as (p & Ep & Hp). rewrite Ep. cbn.
    assert (Hp' : p < length (gl_dict G)) by (by rewrite (co_dict _ _ _ HG)).
    destruct (lookup_lt_is_Some_2 _ _ Hp') as [s Hs]. rewrite rd_lookup, Hs. cbn.
    destruct (decide (s = 0)) as [->|Hs0].
    - exists true. split; [done|]. split; [|done]. intros _. split; [done|]. exists p, 0.
      repeat split; try done. by left.
    - exists (bool_decide (Forall (fun n => n_inn n <> s) (g_nodes g))). split; [done|].
      rewrite bool_decide_eq_true. rewrite list.Forall_forall. split.
      + intros H. split; [done|]. exists p, s. repeat split; try done. right.
        unfold node_numbers. rewrite elem_of_list_fmap. intros (n & -> & Hn). by apply (H n).
      + intros (_ & p' & s' & E & Hs' & Hor) n Hn <-. assert (p' = p) by congruence. subst.
        rewrite Hs in Hs'. simplify_eq. destruct Hor as [?|Hor]; [done|]. apply Hor.
        apply elem_of_list_fmap. by exists n.
  Qed.

  Lemma find_conn_spec ip op G g ks :
    consistent ip op G -> well_formed ip op G g -> (forall k, k ∈ ks -> k < length (g_conns g)) ->
    exists r, find_conn G g ks = Some r /\
      match r with
      | Some k => k ∈ ks /\ exists c, g_conns g !! k = Some c /\ can_split G g c
      | None => forall k c, k ∈ ks -> g_conns g !! k = Some c -> ~ can_split G g c
      end.
  Proof.
    intros HG Hwf. induction ks as [|k ks IH]; intros Hks.
    - exists None. split; [done|]. intros k c H. by apply elem_of_nil in H.
    - destruct (lookup_lt_is_Some_2 _ _ (Hks k ltac:(left))) as [c Hc].
      destruct (splittable_spec _ _ _ _ _ _ HG Hwf Hc) as (b & E & Hb). cbn. rewrite E. cbn. destruct b.
      + exists (Some k). split; [done|]. split; [left|]. exists c. split; [done|]. by apply Hb.
      + destruct IH as (r & Er & Hr). { intros k' Hk'. apply Hks. by right. }
        exists r. split; [done|]. destruct r as [k'|].
        * destruct Hr as [? ?]. split; [by right|done].
        * intros k' c' Hk' Hc' Hcs. apply elem_of_cons in Hk' as [->|Hk'].
          -- rewrite Hc in Hc'. simplify_eq. by apply Hb in Hcs.
          -- by eapply Hr.
  Qed.

  Lemma find_split_spec ip op G g is_ :
    consistent ip op G -> well_formed ip op G g -> (forall i, i ∈ is_ -> i < length (g_nodes g)) ->
    exists r, find_split G g is_ = Some r /\
      match r with
      | Some (i, k) => exists n c, g_nodes g !! i = Some n /\ g_conns g !! k = Some c /\ c_src c = i /\
                         can_split G g c
      | None => forall i k c, i ∈ is_ -> g_conns g !! k = Some c -> c_src c = i -> ~ can_split G g c
      end.
  Proof.
    intros HG Hwf. induction is_ as [|i is_ IH]; intros His.
    - exists None. split; [done|]. intros i k c H. by apply elem_of_nil in H.
    - destruct (lookup_lt_is_Some_2 _ _ (His i ltac:(left))) as [n Hn]. cbn. rewrite rd_lookup, Hn. cbn.
      destruct (wf_lists _ _ _ _ Hwf _ _ Hn) as (_ & _ & Ho & _).
      destruct (find_conn_spec ip op G g (n_out n) HG Hwf) as (r & Er & Hr).
      { intros k Hk. apply Ho in Hk as (c & Hc & _). by eapply lookup_lt_Some. }
      rewrite Er. cbn. destruct r as [k|].
      + exists (Some (i, k)). split; [done|]. destruct Hr as (Hk & c & Hc & Hcs). exists n, c.
        apply Ho in Hk as (c' & Hc' & E). simplify_eq. done.
      + destruct IH as (r' & Er' & Hr'). { intros k' Hk'. apply His. by right. }
        exists r'. split; [done|]. destruct r' as [[i' k']|]; [done|].
        intros i' k' c' Hi' Hc' Es Hcs. apply elem_of_cons in Hi' as [->|Hi'].
        * apply (Hr k' c'); [|done|done]. apply Ho. by exists c'.
        * by apply (Hr' i' k' c').
  Qed.

  (** the tables after a new split *)
  Lemma split_globals_ok ip op G p a b :
    consistent ip op G -> gl_mconns G !! p = Some (a, b) -> gl_dict G !! p = Some 0 ->
    exists G', split_globals G p a b = Some G' /\ consistent ip op G' /\ extends G G' /\
      gl_nodes G' = gl_nodes G + 1 /\ gl_conns G' = gl_conns G + 2 /\
      gl_dict G' !! p = Some (gl_nodes G + 1) /\
      gl_mnodes G' !! gl_nodes G = Some (Some (S (gl_conns G), S (gl_conns G + 1))) /\
      gl_mconns G' = gl_mconns G ++ [(a, gl_nodes G + 1); (gl_nodes G + 1, b)] /\
      gl_dict G' = <[p:=gl_nodes G + 1]> (gl_dict G) ++ [0; 0].
  Proof.
    intros HG Hp Hd. unfold split_globals. pose proof (lookup_lt_Some _ _ _ Hd) as Hpl.
    rewrite wr_Some by done. cbn. eexists. split; [done|].
    destruct HG as [A B C D E F K L].
    assert (Hnew : gl_mnodes G ++ [Some (gl_conns G + 2 - 1, gl_conns G + 2)] =
                   gl_mnodes G ++ [Some (S (gl_conns G), S (gl_conns G + 1))]).
    { do 3 f_equal. f_equal; lia. }
    rewrite Hnew. clear Hnew.
    assert (HF : forall q x y, gl_mconns G !! q = Some (x, y) -> x <> gl_nodes G + 1 /\ y <> gl_nodes G + 1).
    { intros q x y Hq. destruct (F q x y Hq) as (? & ? & _). lia. }
    destruct (F p a b Hp) as (Fa & Fb & Fc & Fd).
    split; [|split; [|split; [|split; [|split; [|split; [|split]]]]]]; cbn; try done.
    - constructor; cbn.
      + rewrite app_length, A. cbn. lia.
      + rewrite app_length, insert_length, B. cbn. lia.
      + rewrite app_length, C. cbn. lia.
      + lia.
      + apply NoDup_app. split; [done|]. split.
        * intros [x y] Hx Hx'. apply elem_of_list_lookup in Hx as [q Hq]. apply HF in Hq.
          apply elem_of_cons in Hx' as [Hx'|Hx']; [simplify_eq; lia|].
          apply elem_of_list_singleton in Hx'. simplify_eq. lia.
        * apply list.NoDup_cons. split; [|apply NoDup_singleton]. rewrite elem_of_list_singleton.
          intros [=]. lia.
      + intros q x y Hq. apply lookup_app_Some in Hq as [Hq|[Hql Hq]].
        * destruct (F q x y Hq) as (? & ? & ? & ?). lia || (repeat split; try done; lia).
        * destruct (q - length (gl_mconns G)) as [|[|]]; cbn in Hq; simplify_eq.
          -- repeat split; try done; try lia. unfold is_input. lia.
          -- repeat split; try done; try lia. unfold is_output. lia.
      + intros q s Hq Hs. apply lookup_app_Some in Hq as [Hq|[Hql Hq]].
        2:{ destruct (q - length (<[p:=gl_nodes G + 1]> (gl_dict G))) as [|[|]]; cbn in Hq; by simplify_eq. }
        destruct (decide (q = p)) as [->|Hqp].
        * rewrite list_lookup_insert in Hq by done. simplify_eq. split; [lia|].
          exists a, b, (gl_conns G), (gl_conns G + 1). split; [by apply lookup_app_l_Some|].
          split. { rewrite lookup_app_r by lia. rewrite C. by replace (gl_nodes G + 1 - 1 - gl_nodes G) with 0 by lia. }
          split. { rewrite lookup_app_r by lia. rewrite A. by replace (gl_conns G - gl_conns G) with 0 by lia. }
          rewrite lookup_app_r by lia. rewrite A. by replace (gl_conns G + 1 - gl_conns G) with 1 by lia.
        * rewrite list_lookup_insert_ne in Hq by done. destruct (K q s Hq Hs) as (Ks & x & y & e1 & e2 & K1 & K2 & K3 & K4).
          split; [lia|]. exists x, y, e1, e2.
          split; [by apply lookup_app_l_Some|]. split; [by apply lookup_app_l_Some|].
          split; by apply lookup_app_l_Some.
      + intros q q' s Hq Hq' Hs.
        assert (Hcase : forall q, (<[p:=gl_nodes G + 1]> (gl_dict G) ++ [0; 0]) !! q = Some s ->
                  (q = p /\ s = gl_nodes G + 1) \/ (q <> p /\ gl_dict G !! q = Some s)).
        { intros z Hz. apply lookup_app_Some in Hz as [Hz|[Hzl Hz]].
          2:{ destruct (z - length (<[p:=gl_nodes G + 1]> (gl_dict G))) as [|[|]]; cbn in Hz; by simplify_eq. }
          destruct (decide (z = p)) as [->|Hzp].
          - rewrite list_lookup_insert in Hz by done. left. by simplify_eq.
          - rewrite list_lookup_insert_ne in Hz by done. by right. }
        destruct (Hcase q Hq) as [[-> Es]|[? H1]]; destruct (Hcase q' Hq') as [[-> Es']|[? H2]]; try done.
        * destruct (K q' s H2 Hs). lia.
        * destruct (K q s H1 Hs). lia.
        * by eapply L.
    - split; cbn; [lia|]. split; [by eexists|]. intros q s Hq Hs. destruct (decide (q = p)) as [->|Hne]; [congruence|].
      apply lookup_app_l_Some. by rewrite list_lookup_insert_ne by done.
    - apply lookup_app_l_Some. by apply list_lookup_insert.
    - rewrite lookup_app_r by lia. by rewrite C, Nat.sub_diag.
  Qed.

  (** the effect of a split on what the genome says *)
  Lemma not_gene_of_missing ip op G g p x y :
    well_formed ip op G g -> gl_mconns G !! p = Some (x, y) ->
    x ∉ node_numbers g \/ y ∉ node_numbers g -> S p ∉ c_inn <$> g_conns g.
  Proof.
    intros Hwf Hp Hor Hin. apply elem_of_list_fmap in Hin as (c & E & Hc).
    apply elem_of_list_lookup in Hc as [k Hk].
    destruct (wf_ends _ _ _ _ Hwf _ _ Hk) as (p' & x' & y' & E' & Hx & Hy & Hp').
    assert (p' = p) by congruence. subst. rewrite Hp in Hp'. simplify_eq.
    destruct Hor as [H|H]; apply H; apply elem_of_list_fmap; eexists; (split; [done|by eapply elem_of_list_lookup_2]).
  Qed.

  Lemma split_ok ip op rmax rand G g :
    rand_ok rmax rand -> 1 <= ip -> consistent ip op G -> well_formed ip op G g ->
    exists r G' g', split_random_connection one rmax rand G g = Some (r, G', g') /\
      consistent ip op G' /\ extends G G' /\ well_formed ip op G' g' /\
      (if r : bool then split_effect one G G' g g'
       else G' = G /\ g' = g /\ forall num a b w, has_gene g num a b true w ->
              exists s, gl_dict G !! (num - 1) = Some s /\ s <> 0 /\ s ∈ node_numbers g).
  Proof.
    intros Hr Hip HG Hwf. unfold split_random_connection.
    set (tot := length (g_nodes g)).
    assert (Hlen : length (seq 0 tot) = tot) by apply seq_length.
    destruct (shuffle_some rmax rand (seq 0 tot) Hr) as (temp & Et & Pt). rewrite Hlen in Et.
    rewrite Et. cbn [mbind option_bind].
    assert (Htot : tot <> 0).
    { destruct (wf_base _ _ _ _ Hwf 0 ltac:(lia)) as (n & Hn & _). apply lookup_lt_Some in Hn. unfold tot. lia. }
    rewrite decide_False by done.
    destruct (find_split_spec ip op G g temp HG Hwf) as (r & Er & Hfs).
    { intros i Hi. rewrite Pt in Hi. apply elem_of_seq in Hi. unfold tot in Hi. lia. }
    rewrite Er. cbn [mbind option_bind]. destruct r as [[i k]|].
    2:{ exists false, G, g. split; [done|]. split; [done|]. split; [apply extends_refl|]. split; [done|].
        split; [done|]. split; [done|]. intros num a b w (k & i & j & x & y & Hk & Hx & Ea & Hy & Eb).
        pose proof (lookup_lt_Some _ _ _ Hx) as Hi.
        assert (Hn : ~ can_split G g (mkConn num i j true w)).
        { apply (Hfs i k); [|done|done]. rewrite Pt. apply elem_of_seq. unfold tot. lia. }
        destruct (gene_position _ _ _ _ _ _ HG Hwf Hk) as (p & Ep & Hp). cbn in Ep. subst num.
        rewrite <- (co_dict _ _ _ HG) in Hp. destruct (lookup_lt_is_Some_2 _ _ Hp) as [s Hs].
        exists s. replace (S p - 1) with p by lia. split; [done|].
        destruct (decide (s = 0)) as [->|Hs0].
        { exfalso. apply Hn. split; [done|]. exists p, 0. repeat split; try done. by left. }
        split; [done|]. destruct (decide (s ∈ node_numbers g)); [done|].
        exfalso. apply Hn. split; [done|]. exists p, s. repeat split; try done. by right. }
    destruct Hfs as (n & c & Hn & Hc & Es & Hflag & p & s0 & Ep & Hs0 & Hor).
    rewrite (rd_lookup (g_nodes g) i), Hn. cbn [mbind option_bind]. cbv zeta.
    rewrite (index_of_lookup _ _ _ (wf_numbers _ _ _ _ Hwf) Hn).
    rewrite (rd_lookup (g_nodes g) i), Hn. cbn [mbind option_bind].
    rewrite (rd_lookup (g_conns g) k), Hc. cbn [mbind option_bind].
    destruct (wf_ends _ _ _ _ Hwf _ _ Hc) as (p' & x & y & Ep' & Hx & Hy & Hm).
    assert (p' = p) by congruence. subst p'. clear Ep'.
    assert (x = n) by congruence. subst x. clear Hx.
    rewrite rd_lookup, Hy. cbn [mbind option_bind]. rewrite Ep. cbn [minus_one mbind option_bind].
    rewrite rd_lookup, Hs0. cbn [mbind option_bind].
    assert (HG' : exists G' s e1 e2,
              (if decide (s0 = 0) then split_globals G p (n_inn n) (n_inn y) else Some G) = Some G' /\
              consistent ip op G' /\ extends G G' /\ gl_dict G' !! p = Some (S s) /\
              gl_mnodes G' !! s = Some (Some (S e1, S e2)) /\
              gl_mconns G' !! e1 = Some (n_inn n, S s) /\ gl_mconns G' !! e2 = Some (S s, n_inn y) /\
              S s ∉ node_numbers g /\ e1 <> e2 /\ S s <= gl_nodes G' /\
              ((gl_dict G !! p = Some (S s) /\ G' = G) \/
               (gl_dict G !! p = Some 0 /\ S s = gl_nodes G + 1 /\ S e1 = gl_conns G + 1 /\ S e2 = gl_conns G + 2 /\
                gl_nodes G' = gl_nodes G + 1 /\ gl_conns G' = gl_conns G + 2))).
    { destruct (decide (s0 = 0)) as [->|Hne].
      - destruct (split_globals_ok ip op G p (n_inn n) (n_inn y) HG Hm Hs0)
          as (G' & E & HG' & Hext & E1 & E2 & E3 & E4 & E5 & E6).
        exists G', (gl_nodes G), (gl_conns G), (gl_conns G + 1). split; [done|]. split; [done|].
        split; [done|]. rewrite E3. split; [f_equal; lia|]. split; [done|].
        rewrite E5. pose proof (co_conns _ _ _ HG) as Hcl.
        split. { rewrite lookup_app_r by lia. rewrite Hcl, Nat.sub_diag. cbn. do 2 f_equal. lia. }
        split. { rewrite lookup_app_r by lia. rewrite Hcl. replace (gl_conns G + 1 - gl_conns G) with 1 by lia.
                 cbn. do 2 f_equal. lia. }
        split. { intros Hin. apply (wf_range _ _ _ _ Hwf) in Hin. lia. }
        split; [lia|]. split; [lia|]. right. repeat split; try done; try lia.
      - destruct Hor as [?|Hor]; [done|].
        destruct (co_split _ _ _ HG p s0 Hs0 Hne) as (Hrange & a & b & e1 & e2 & K1 & K2 & K3 & K4).
        rewrite Hm in K1. simplify_eq. destruct s0 as [|s]; [done|].
        exists G, s, e1, e2. split; [done|]. split; [done|]. split; [apply extends_refl|].
        split; [done|]. split. { rewrite <- K2. f_equal. lia. }
        split; [done|]. split; [done|]. split; [done|]. split.
        { intros ->. rewrite K3 in K4. injection K4 as E1 E2.
          apply Hor. rewrite <- E1. apply elem_of_list_fmap. exists n. split; [done|]. by eapply elem_of_list_lookup_2. }
        split; [lia|]. by left. }
    destruct HG' as (G' & s & e1 & e2 & EG & HG' & Hext & Hd' & Hmn & Hm1 & Hm2 & Hsnew & Hee & Hsle & Hcases).
    rewrite EG. cbn [mbind option_bind]. rewrite rd_lookup, Hd'. cbn [minus_one mbind option_bind].
    rewrite rd_lookup, Hmn. cbn [mbind option_bind].
    pose proof (wf_extend _ _ _ _ _ Hext Hwf) as Hwf'.
    destruct (upd_ok ip op G' g k (set_flag false) c Hwf' Hc) as (g1 & E1 & W1 & N1 & C1 & I1 & Ge1); try done.
    rewrite E1. cbn [mbind option_bind].
    assert (Hnum1 : node_numbers g1 = node_numbers g) by (unfold node_numbers; by rewrite N1).
    assert (W2 : well_formed ip op G' (add_node g1 (S s))).
    { apply wf_add_node; [done|by rewrite Hnum1|lia]. }
    assert (Hn2 : g_nodes (add_node g1 (S s)) !! i = Some n).
    { cbn. rewrite N1. by apply lookup_app_l_Some. }
    assert (Hs2 : g_nodes (add_node g1 (S s)) !! tot = Some (mkNode (S s) [] [] None)).
    { cbn. rewrite N1, lookup_app_r by (unfold tot; lia). unfold tot. by rewrite Nat.sub_diag. }
    destruct (attach_ok ip op G' (add_node g1 (S s)) e1 i tot n (mkNode (S s) [] [] None) true one
                W2 Hn2 Hs2 Hm1) as (g3 & E3 & W3 & N3 & I3 & [t3 T3] & Ge3).
    { cbn. rewrite I1. eapply not_gene_of_missing; [exact Hwf'|exact Hm1|by right]. }
    rewrite E3. cbn [mbind option_bind].
    assert (Hs3 : exists z, g_nodes g3 !! tot = Some z /\ n_inn z = S s).
    { assert (H : node_numbers g3 !! tot = Some (S s)).
      { rewrite N3. unfold node_numbers. by rewrite list_lookup_fmap, Hs2. }
      unfold node_numbers in H. rewrite list_lookup_fmap in H. destruct (g_nodes g3 !! tot) as [z|]; [|done].
      cbn in H. simplify_eq. by exists z. }
    destruct Hs3 as (z & Hz & Ez).
    assert (Hy3 : exists v, g_nodes g3 !! c_dst c = Some v /\ n_inn v = n_inn y).
    { assert (H : node_numbers g3 !! c_dst c = Some (n_inn y)).
      { rewrite N3. unfold node_numbers. rewrite list_lookup_fmap. cbn. rewrite N1.
        rewrite (lookup_app_l_Some _ _ _ _ Hy). done. }
      unfold node_numbers in H. rewrite list_lookup_fmap in H. destruct (g_nodes g3 !! c_dst c) as [v|]; [|done].
      cbn in H. simplify_eq. by exists v. }
    destruct Hy3 as (v & Hv & Ev).
    destruct (attach_ok ip op G' g3 e2 tot (c_dst c) z v true (c_weight c) W3 Hz Hv)
      as (g4 & E4 & W4 & N4 & I4 & _ & Ge4).
    { by rewrite Ez, Ev. }
    { rewrite I3. cbn. rewrite I1, elem_of_app, elem_of_list_singleton. intros [Hin|Hin]; [|congruence].
      revert Hin. eapply not_gene_of_missing; [exact Hwf'|exact Hm2|by left]. }
    rewrite E4. cbn [mbind option_bind]. exists true, G', g4. split; [done|].
    split; [done|]. split; [done|]. split; [done|].
    exists (S p), (n_inn n), (n_inn y), (c_weight c), (S s), (S e1), (S e2).
    assert (Hg0 : has_gene g (S p) (n_inn n) (n_inn y) true (c_weight c)).
    { rewrite <- Ep, <- Hflag. by eapply has_gene_intro; [|rewrite Es|]. }
    split; [done|]. split; [done|]. split.
    { rewrite N4, N3. unfold node_numbers. cbn. rewrite N1, fmap_app. done. }
    split.
    2:{ replace (S p - 1) with p by lia. done. }
    intros n' a' b' e' w'. rewrite Ge4, Ge3, (has_gene_add_node ip op G') by done. rewrite Ge1. cbn.
    rewrite Ez, Ev, Ep. split.
    - intros [[[H|(-> & -> & -> & H)]|H]|H]; [by left|right; left|right; right; left|right; right; right].
      + rewrite Hflag in H. destruct (has_gene_unique _ _ _ _ _ _ _ _ _ _ _ _ _ Hwf H Hg0) as (-> & -> & _). done.
      + done.
      + done.
    - intros [H|[(-> & -> & -> & -> & ->)|[H|H]]].
      + left. left. by left.
      + left. left. right. rewrite Hflag. done.
      + left. by right.
      + by right.
  Qed.
End proofs.
