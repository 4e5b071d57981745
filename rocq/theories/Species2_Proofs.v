From Coq Require Import Reals Lra.
From Verif Require Import Base BaseLemmas Shuffle_Model Shuffle_Spec Shuffle_Proofs Sort_Model Neat_Model Neat_Spec Neat_Proofs Tidy_Proofs.
From Verif Require Import Neat2_Proofs Neat3_Proofs Neat4_Proofs Neat5_Proofs Neat6_Proofs Species_Model Species_Spec Species_Proofs.
Open Scope nat_scope.

(** ** Properties of the distance *)

Lemma total_nonneg l : Forall (fun x => 0 <= x)%R l -> (0 <= total l)%R.
Proof. unfold total. induction 1; cbn; lra. Qed.

Lemma mean_nonneg l : Forall (fun x => 0 <= x)%R l -> (0 <= mean l)%R.
Proof.
  intros H. unfold mean. case_decide as E; [lra|]. apply Rmult_le_pos; [by apply total_nonneg|].
  apply Rlt_le, Rinv_0_lt_compat, lt_0_INR. destruct l; [done|]. cbn. lia.
Qed.

Lemma mean_zero l : Forall (fun x => x = 0)%R l -> mean l = 0%R.
Proof.
  intros H. unfold mean. case_decide; [done|]. assert (E : total l = 0%R).
  { clear -H. unfold total. induction H; cbn; lra. }
  rewrite E. unfold Rdiv. ring.
Qed.

Lemma weight_difference_nonneg g h : (0 <= weight_difference g h)%R.
Proof.
  unfold weight_difference. apply mean_nonneg, list.Forall_forall. intros x Hx.
  apply elem_of_list_fmap in Hx as (n & -> & _). apply Rabs_pos.
Qed.

Lemma divisor_pos g h : (0 < INR (divisor g h))%R.
Proof. apply lt_0_INR. unfold divisor. case_decide; lia. Qed.

Lemma one_sided_nonneg g h : (0 <= one_sided_distance g h)%R.
Proof.
  unfold one_sided_distance. pose proof (weight_difference_nonneg g h). pose proof (divisor_pos g h).
  assert (0 <= (INR (length (excess g h)) + INR (length (disjoint g h))) / INR (divisor g h))%R.
  { apply Rmult_le_pos; [|by apply Rlt_le, Rinv_0_lt_compat]. pose proof (pos_INR (length (excess g h))).
    pose proof (pos_INR (length (disjoint g h))). lra. }
  lra.
Qed.

Lemma distance_nonneg' g h : (0 <= distance g h)%R.
Proof. unfold distance. case_decide; apply one_sided_nonneg. Qed.

Lemma filter_none {A} (P : A -> Prop) `{!forall x, Decision (P x)} l :
  (forall x, x ∈ l -> ~ P x) -> filter P l = [].
Proof.
  induction l as [|x l IH]; intros Hn; [done|]. rewrite filter_cons. rewrite decide_False by (apply Hn; constructor).
  apply IH. intros y Hy. apply Hn. by constructor.
Qed.

Lemma one_sided_subset g h :
  (forall n, n ∈ numbers g -> n ∈ numbers h) ->
  (forall n, n ∈ numbers g -> expressed (g_conns g) n = expressed (g_conns h) n) ->
  one_sided_distance g h = 0%R.
Proof.
  intros Hs He. unfold one_sided_distance.
  assert (E1 : excess g h = []).
  { unfold excess. apply filter_none. intros n Hn [H _]. by apply H, Hs. }
  assert (E2 : disjoint g h = []).
  { unfold disjoint. apply filter_none. intros n Hn [H _]. by apply H, Hs. }
  rewrite E1, E2. cbn [length INR]. unfold weight_difference. rewrite mean_zero.
  - unfold Rdiv. ring.
  - apply list.Forall_forall. intros x Hx. apply elem_of_list_fmap in Hx as (n & -> & Hn).
    apply elem_of_list_filter in Hn as [_ Hn]. rewrite He by done. rewrite Rminus_diag_eq by done. apply Rabs_R0.
Qed.

Lemma distance_self g : distance g g = 0%R.
Proof. unfold distance. rewrite decide_False by lia. by apply one_sided_subset. Qed.

Lemma common_sym ip op G g h :
  well_formed ip op G g -> well_formed ip op G h -> common g h ≡ₚ common h g.
Proof.
  intros H1 H2. unfold common. apply NoDup_Permutation.
  - apply list.NoDup_filter, (wf_genes _ _ _ _ H1).
  - apply list.NoDup_filter, (wf_genes _ _ _ _ H2).
  - intros n. rewrite !elem_of_list_filter. tauto.
Qed.

Lemma weight_difference_sym ip op G g h :
  well_formed ip op G g -> well_formed ip op G h -> weight_difference g h = weight_difference h g.
Proof.
  intros H1 H2. unfold weight_difference.
  assert (P : (fun n => Rabs (expressed (g_conns g) n - expressed (g_conns h) n)) <$> common g h
           ≡ₚ (fun n => Rabs (expressed (g_conns h) n - expressed (g_conns g) n)) <$> common h g).
  { rewrite (common_sym _ _ _ _ _ H1 H2). apply Permutation_refl'. apply list_fmap_ext. intros. apply Rabs_minus_sym. }
  unfold mean. rewrite (total_perm _ _ P), (Permutation_length P). pose proof (Permutation_length P) as L.
  destruct (_ <$> common g h), (_ <$> common h g); done.
Qed.

(** ** The distance only depends on the connections *)

Lemma gene_number ip op G (g : genome R) n :
  well_formed ip op G g -> n ∈ numbers g <-> exists a b e w, has_gene g n a b e w.
Proof.
  intros Hw. unfold numbers. rewrite elem_of_list_fmap. split.
  - intros (c & -> & Hc). apply elem_of_list_lookup in Hc as [k Hk].
    destruct (wf_ends _ _ _ _ Hw _ _ Hk) as (p & x & y & _ & Hx & Hy & _).
    exists (n_inn x), (n_inn y), (c_flag c), (c_weight c), k, (c_src c), (c_dst c), x, y.
    split_and!; [|done..]. rewrite Hk. by destruct c.
  - intros (a & b & e & w & k & i & j & x & y & Hk & _). eexists. split; [|by eapply elem_of_list_lookup_2]. done.
Qed.

Lemma gene_expressed ip op G (g : genome R) n a b e w :
  well_formed ip op G g -> has_gene g n a b e w -> expressed (g_conns g) n = if e then w else 0%R.
Proof.
  intros Hw (k & i & j & x & y & Hk & _).
  pose proof (expressed_in (g_conns g) (mkConn n i j e w) (wf_genes _ _ _ _ Hw)) as H. cbn in H. rewrite H; [done|].
  by eapply elem_of_list_lookup_2.
Qed.

Lemma expressed_out cs n : n ∉ c_inn <$> cs -> expressed cs n = 0%R.
Proof.
  induction cs as [|c cs IH]; intros H; [done|]. cbn in *. apply not_elem_of_cons in H as [H1 H2].
  rewrite decide_False by done. by apply IH.
Qed.

Lemma same_numbers ip op G G' g h :
  well_formed ip op G g -> well_formed ip op G' h -> same_genome g h ->
  (numbers g ≡ₚ numbers h) /\ forall n, expressed (g_conns g) n = expressed (g_conns h) n.
Proof.
  intros H1 H2 [_ Hs].
  assert (Hin : forall n, n ∈ numbers g <-> n ∈ numbers h).
  { intros n. rewrite (gene_number _ _ _ _ _ H1), (gene_number _ _ _ _ _ H2).
    split; intros (a & b & e & w & H); exists a, b, e, w; by apply Hs. }
  split.
  - apply NoDup_Permutation; [apply (wf_genes _ _ _ _ H1)|apply (wf_genes _ _ _ _ H2)|done].
  - intros n. destruct (decide (n ∈ numbers g)) as [Hn|Hn].
    + apply (gene_number _ _ _ _ _ H1) in Hn as (a & b & e & w & Hg).
      rewrite (gene_expressed _ _ _ _ _ _ _ _ _ H1 Hg). apply Hs in Hg. by rewrite (gene_expressed _ _ _ _ _ _ _ _ _ H2 Hg).
    + rewrite expressed_out by done. rewrite expressed_out; [done|]. by rewrite <- Hin.
Qed.

Section congruence.
  Context (g g' h h' : genome R).
  Context (Pg : numbers g ≡ₚ numbers g') (Ph : numbers h ≡ₚ numbers h').
  Context (Eg : forall n, expressed (g_conns g) n = expressed (g_conns g') n).
  Context (Eh : forall n, expressed (g_conns h) n = expressed (g_conns h') n).
  Context (Ig : g_input g = g_input g') (Og : g_output g = g_output g').

  Lemma one_sided_ext : one_sided_distance g h = one_sided_distance g' h'.
  Proof using Pg Ph Eg Eh Ig Og.
    assert (Hh : forall n, n ∈ numbers h <-> n ∈ numbers h') by (intros n; by rewrite Ph).
    assert (Lh : last_number h = last_number h') by by apply foldr_max_perm.
    unfold one_sided_distance.
    assert (A1 : length (excess g h) = length (excess g' h')).
    { unfold excess. rewrite (filter_perm_length _ _ _ Pg). f_equal. apply filter_ext_list. intros n _. by rewrite Hh, Lh. }
    assert (A2 : length (disjoint g h) = length (disjoint g' h')).
    { unfold disjoint. rewrite (filter_perm_length _ _ _ Pg). f_equal. apply filter_ext_list. intros n _. by rewrite Hh, Lh. }
    assert (A3 : divisor g h = divisor g' h').
    { unfold divisor. by rewrite (Permutation_length Pg), (Permutation_length Ph), Ig, Og. }
    assert (A4 : weight_difference g h = weight_difference g' h').
    { unfold weight_difference.
      set (F := fun n => Rabs (expressed (g_conns g) n - expressed (g_conns h) n)).
      set (F' := fun n => Rabs (expressed (g_conns g') n - expressed (g_conns h') n)).
      assert (EF : forall n, F n = F' n) by (intros n; unfold F, F'; by rewrite Eg, Eh).
      assert (P : F <$> common g h ≡ₚ F' <$> common g' h').
      { rewrite (list_fmap_ext F F' (common g h)) by (intros; apply EF). unfold common. rewrite Pg.
        by rewrite (filter_ext_list (fun n => n ∈ numbers h) (fun n => n ∈ numbers h')) by (intros; apply Hh). }
      unfold mean. rewrite (total_perm _ _ P), (Permutation_length P).
      pose proof (Permutation_length P) as L.
      destruct (F <$> common g h), (F' <$> common g' h'); try done. }
    by rewrite A1, A2, A3, A4.
  Qed.
End congruence.

Lemma distance_ext ip op G g g' h h' :
  well_formed ip op G g -> well_formed ip op G g' -> well_formed ip op G h -> well_formed ip op G h' ->
  same_genome g g' -> same_genome h h' -> distance g h = distance g' h'.
Proof.
  intros H1 H2 H3 H4 S1 S2. destruct (same_numbers _ _ _ _ _ _ H1 H2 S1) as [P1 E1].
  destruct (same_numbers _ _ _ _ _ _ H3 H4 S2) as [P2 E2]. unfold distance.
  assert (L1 : last_number g = last_number g') by by apply foldr_max_perm.
  assert (L2 : last_number h = last_number h') by by apply foldr_max_perm.
  rewrite L1, L2. case_decide; apply one_sided_ext; try done.
  - by rewrite (wf_input _ _ _ _ H3), (wf_input _ _ _ _ H4).
  - by rewrite (wf_output _ _ _ _ H3), (wf_output _ _ _ _ H4).
  - by rewrite (wf_input _ _ _ _ H1), (wf_input _ _ _ _ H2).
  - by rewrite (wf_output _ _ _ _ H1), (wf_output _ _ _ _ H2).
Qed.

Lemma same_genome_refl g : same_genome g g.
Proof. by split. Qed.
Lemma same_genome_sym g h : same_genome g h -> same_genome h g.
Proof. intros [P H]. split; [done|]. intros. by rewrite H. Qed.
Lemma same_genome_trans g h k : same_genome g h -> same_genome h k -> same_genome g k.
Proof. intros [P1 H1] [P2 H2]. split; [by rewrite P1|]. intros. by rewrite H1, H2. Qed.

(** ** Species *)

Section placing.
  Context (ip op : nat) (G : globals).
  Context (HG : consistent ip op G).

  (** [x] is a sound individual *)
  Definition fine (x : individual) : Prop := well_formed ip op G (i_genome x) /\ i_rip x = 0%Z.
  Definition fine_specie (s : specie) : Prop := fine (s_rep s) /\ Forall fine (s_members s).

  Lemma copy_individual_ok x : fine x -> exists y, copy_individual x = Some y /\ fine y /\ twin x y.
  Proof.
    intros [Hw Hr]. unfold copy_individual. destruct (copy_ok ip op G _ Hw) as (g' & -> & Hw' & N & H).
    eexists. split; [done|]. split; [by split|]. split; [done|]. split; [done|]. cbn. split; [by rewrite N|].
    intros. by rewrite H.
  Qed.

  Lemma distance_fine x y : fine x -> fine y ->
    compute_species_distance (i_genome x) (i_genome y) (gl_conns G) = Some (distance (i_genome x) (i_genome y)).
  Proof using HG. intros [H1 _] [H2 _]. by rewrite (distance_ok ip op G). Qed.

  Lemma find_specie_ok thr l x :
    Forall fine_specie l -> fine x ->
    exists r, find_specie (gl_conns G) thr l x = Some r /\
      match r with
      | Some j => exists s, l !! j = Some s /\ (distance_to s x < thr)%R /\ apart thr l j x
      | None => apart thr l (length l) x
      end.
  Proof using HG.
    intros Hl Hx. induction Hl as [|s l [Hs _] Hl IH]; cbn.
    - exists None. split; [done|]. intros i s Hi. cbn in Hi. lia.
    - rewrite distance_fine by done. cbn [mbind option_bind]. destruct (Rlt_dec _ _) as [Hd|Hd].
      + eexists. split; [done|]. exists s. split; [done|]. split; [done|]. intros i s' Hi. lia.
      + destruct IH as (r & -> & Hr). cbn [mbind option_bind].
        exists (option_map S r). split; [done|].
        assert (Hap : forall j, apart thr l j x -> apart thr (s :: l) (S j) x).
        { intros j Ha i s' Hi Hs'. destruct i as [|i]; cbn in Hs'.
          - simplify_eq. unfold distance_to. lra.
          - apply (Ha i s'); [lia|done]. }
        destruct r as [j|]; cbn.
        * destruct Hr as (s' & Hs' & Hd' & Ha). exists s'. split; [done|]. split; [done|]. by apply Hap.
        * by apply Hap.
  Qed.

  Lemma twin_distance s x y : fine (s_rep s) -> fine x -> fine y -> twin x y -> distance_to s x = distance_to s y.
  Proof.
    intros [H1 _] [H2 _] [H3 _] (_ & _ & Hs). unfold distance_to.
    by apply (distance_ext ip op G).
  Qed.

  Lemma apart_app thr l l' j x : j <= length l -> apart thr l j x -> apart thr (l ++ l') j x.
  Proof. intros Hj Ha i s Hi Hs. apply (Ha i s Hi). rewrite lookup_app_l in Hs by lia. done. Qed.

  Lemma twin_apart thr l j x y : Forall fine_specie l -> fine x -> fine y -> twin x y -> apart thr l j x -> apart thr l j y.
  Proof.
    intros Hl Hx Hy Ht Ha i s Hi Hs. rewrite <- (twin_distance s x y); try done; [by eapply Ha|].
    by destruct (Forall_lookup_1 _ _ _ _ Hl Hs).
  Qed.

  Lemma found_ok x : fine x ->
    exists s m, found_specie x = Some s /\ fine_specie s /\ s_members s = [m] /\ twin x m /\ twin x (s_rep s) /\
      twin (s_rep s) m /\ s_rip s = 0%Z.
  Proof.
    intros Hx. unfold found_specie. destruct (copy_individual_ok x Hx) as (y & -> & Hy & Ht). cbn.
    eexists _, y. split; [done|]. cbn. split_and!; try done.
    split; [done|]. cbn. by apply list.Forall_singleton.
  Qed.

  (** a species founded at the end of the list *)
  Lemma well_placed_found thr l x s m :
    well_placed thr l -> Forall fine_specie l -> apart thr l (length l) x -> fine x ->
    fine_specie s -> s_members s = [m] -> twin x m -> twin x (s_rep s) -> twin (s_rep s) m ->
    well_placed thr (l ++ [s]).
  Proof.
    intros Hp Hl Ha Hx [Hs Hms] Em T1 T2 T3 j s' Hj. apply lookup_app_Some in Hj as [Hj|[Hj Hj']].
    - pose proof (lookup_lt_Some _ _ _ Hj) as Hlt. destruct (Hp _ _ Hj) as [A B]. split; [apply apart_app; [lia|done]|].
      intros y Hy. destruct (B y Hy). split; [apply apart_app; [lia|done]|done].
    - apply list_lookup_singleton_Some in Hj' as [Hj' <-]. assert (j = length l) as -> by lia.
      assert (Hm : fine m) by (rewrite Em in Hms; by inversion Hms).
      split.
      + apply apart_app; [done|]. by apply (twin_apart thr l _ x).
      + intros y Hy. rewrite Em in Hy. apply elem_of_list_singleton in Hy as ->. split; [|by right].
        apply apart_app; [done|]. by apply (twin_apart thr l _ x).
  Qed.

  Lemma members_cons s l : members (s :: l) = s_members s ++ members l.
  Proof. done. Qed.
  Lemma members_app l l' : members (l ++ l') = members l ++ members l'.
  Proof.
    induction l as [|s l IH]; [done|]. change ((s :: l) ++ l') with (s :: (l ++ l')).
    by rewrite !members_cons, IH, app_assoc.
  Qed.

  Lemma members_insert l : forall j s s' m,
    l !! j = Some s -> s_members s' = s_members s ++ [m] -> members (<[j:=s']> l) ≡ₚ members l ++ [m].
  Proof.
    induction l as [|t l IH]; intros j s s' m Hj E; [done|]. destruct j as [|j]; cbn in Hj.
    - simplify_eq. change (<[0:=s']> (s :: l)) with (s' :: l). rewrite !members_cons, E, <- !app_assoc. f_equiv.
      apply Permutation_app_comm.
    - change (<[S j:=s']> (t :: l)) with (t :: <[j:=s']> l). rewrite !members_cons, <- app_assoc. f_equiv. by eapply IH.
  Qed.

  Lemma place_ok thr l x :
    Forall fine_specie l -> fine x -> well_placed thr l ->
    exists l' m, place (gl_conns G) thr l x = Some l' /\ Forall fine_specie l' /\ well_placed thr l' /\
      twin x m /\ (members l' ≡ₚ members l ++ [m]) /\ length l <= length l'.
  Proof using HG.
    intros Hl Hx Hp. unfold place. destruct (find_specie_ok thr l x Hl Hx) as (r & -> & Hr). cbn [mbind option_bind].
    destruct r as [j|].
    - destruct Hr as (s & Hs & Hd & Ha). unfold rd. rewrite Hs. cbn [mbind option_bind].
      destruct (copy_individual_ok x Hx) as (m & -> & Hm & Ht). cbn [mbind option_bind].
      rewrite wr_Some by by eapply lookup_lt_Some.
      destruct (Forall_lookup_1 _ _ _ _ Hl Hs) as [Hrep Hms].
      eexists _, m. split; [done|]. split; [|split; [|split; [done|split]]].
      + apply Forall_insert; [done|]. split; [done|]. cbn. apply Forall_app. split; [done|]. by constructor.
      + assert (Hrepeq : forall i s1, <[j:=mkSpecie (s_rep s) (s_members s ++ [m]) (s_age s) (s_best s) (s_rip s)]> l !! i = Some s1 ->
                  exists s2, l !! i = Some s2 /\ s_rep s1 = s_rep s2 /\
                    forall y, y ∈ s_members s1 -> y ∈ s_members s2 \/ (i = j /\ y = m)).
        { intros i s1 Hi. destruct (decide (i = j)) as [->|Hne].
          - rewrite list_lookup_insert in Hi by by eapply lookup_lt_Some. simplify_eq. exists s. split; [done|]. split; [done|].
            cbn. intros y Hy. apply elem_of_app in Hy as [?|Hy]; [by left|]. apply elem_of_list_singleton in Hy. by right.
          - rewrite list_lookup_insert_ne in Hi by done. exists s1. split; [done|]. split; [done|]. intros y Hy. by left. }
        assert (Hap : forall i y, apart thr l i y -> apart thr (<[j:=mkSpecie (s_rep s) (s_members s ++ [m]) (s_age s) (s_best s) (s_rip s)]> l) i y).
        { intros i y Hay i' s1 Hi' Hs1. destruct (Hrepeq _ _ Hs1) as (s2 & Hs2 & E & _). unfold distance_to. rewrite E. by apply (Hay i' s2). }
        intros i s1 Hi. destruct (Hrepeq _ _ Hi) as (s2 & Hs2 & E & Hmem). destruct (Hp _ _ Hs2) as [A B]. rewrite E.
        split; [by apply Hap|]. intros y Hy. destruct (Hmem y Hy) as [Hy'|[-> ->]].
        * destruct (B y Hy') as [B1 B2]. split; [by apply Hap|]. unfold distance_to. by rewrite E.
        * rewrite Hs in Hs2. simplify_eq. split; [apply Hap; by apply (twin_apart thr l j x)|]. left. unfold distance_to. rewrite E.
          change (distance_to s2 m < thr)%R. by rewrite <- (twin_distance s2 x m).
      + by eapply members_insert.
      + by rewrite insert_length.
    - destruct (found_ok x Hx) as (s & m & -> & Hs & Em & T1 & T2 & T3 & _). cbn [mbind option_bind].
      eexists _, m. split; [done|]. split; [apply Forall_app; split; [done|by constructor]|].
      split; [by eapply well_placed_found|]. split; [done|]. split; [|rewrite app_length; lia].
      rewrite members_app. change (members [s]) with (s_members s ++ []). by rewrite Em.
  Qed.

  Lemma place_all_ok thr gs : forall l,
    Forall fine_specie l -> Forall fine gs -> well_placed thr l ->
    exists l' copies, each (place (gl_conns G) thr) gs l = Some l' /\ Forall fine_specie l' /\ well_placed thr l' /\
      Forall2 twin gs copies /\ (members l' ≡ₚ members l ++ copies).
  Proof using HG.
    induction gs as [|x gs IH]; intros l Hl Hgs Hp.
    - exists l, []. cbn. rewrite app_nil_r. done.
    - apply list.Forall_cons in Hgs as [Hx Hgs].
      destruct (place_ok thr l x Hl Hx Hp) as (l1 & m & E1 & Hl1 & Hp1 & Ht & P1 & _).
      destruct (IH l1 Hl1 Hgs Hp1) as (l2 & cs & E2 & Hl2 & Hp2 & F & P2).
      exists l2, (m :: cs). cbn [each]. rewrite E1. cbn [mbind option_bind]. split_and!; try done.
      + by constructor.
      + rewrite P2, P1, <- app_assoc. done.
  Qed.

  Lemma create_ok thr gs :
    Forall fine gs ->
    exists l, create_species gs (gl_conns G) thr = Some l /\ Forall fine_specie l /\ well_placed thr l /\
      length (members l) <= length gs.
  Proof using HG.
    unfold create_species.
    cut (forall l, Forall fine_specie l -> well_placed thr l -> Forall fine gs ->
      exists l', each (fun l x => r ← find_specie (gl_conns G) thr l x;
                       match r with Some _ => Some l | None => s ← found_specie x; Some (l ++ [s]) end) gs l = Some l' /\
        Forall fine_specie l' /\ well_placed thr l' /\ length (members l') <= length (members l) + length gs).
    { intros H Hgs. destruct (H [] ltac:(constructor) ltac:(by intros j s Hj) Hgs) as (l' & ? & ? & ? & ?). by exists l'. }
    induction gs as [|x gs IH]; intros l Hl Hp Hgs.
    - exists l. cbn. split_and!; try done. lia.
    - apply list.Forall_cons in Hgs as [Hx Hgs]. cbn [each].
      destruct (find_specie_ok thr l x Hl Hx) as (r & -> & Hr). cbn [mbind option_bind]. destruct r as [j|].
      + destruct (IH l Hl Hp Hgs) as (l' & E & ? & ? & ?). exists l'. cbn [mbind option_bind]. split_and!; try done. cbn. lia.
      + destruct (found_ok x Hx) as (s & m & -> & Hs & Em & T1 & T2 & T3 & _). cbn [mbind option_bind].
        destruct (IH (l ++ [s])) as (l' & E & ? & ? & Hlen); [by apply Forall_app; split; [|constructor]|by eapply well_placed_found|done|].
        exists l'. split_and!; try done. rewrite members_app, app_length in Hlen. change (members [s]) with (s_members s ++ []) in Hlen.
        rewrite Em in Hlen. cbn in *. lia.
  Qed.

  (** changes of the ages, best fitness and so on do not matter *)
  Lemma well_placed_map thr f l :
    (forall s, s_rep (f s) = s_rep s) -> (forall s x, x ∈ s_members (f s) -> x ∈ s_members s) ->
    well_placed thr l -> well_placed thr (f <$> l).
  Proof.
    intros Hr Hm Hp j s' Hj. rewrite list_lookup_fmap in Hj. destruct (l !! j) as [s|] eqn:Es; [|done]. cbn in Hj. simplify_eq.
    destruct (Hp _ _ Es) as [A B].
    assert (Hap : forall x, apart thr l j x -> apart thr (f <$> l) j x).
    { intros x Ha i s1 Hi Hs1. rewrite list_lookup_fmap in Hs1. destruct (l !! i) as [s2|] eqn:E2; [|done]. cbn in Hs1. simplify_eq.
      unfold distance_to. rewrite Hr. by apply (Ha i s2). }
    rewrite Hr. split; [by apply Hap|]. intros x Hx. apply Hm in Hx. destruct (B x Hx) as [B1 B2].
    split; [by apply Hap|]. unfold distance_to. by rewrite Hr.
  Qed.

  Lemma well_placed_filter thr (P : specie -> Prop) `{!forall s, Decision (P s)} l :
    well_placed thr l -> well_placed thr (filter P l).
  Proof.
    intros Hp.
    assert (Hsub : forall (l : list specie) j s, filter P l !! j = Some s -> exists k, l !! k = Some s /\
              forall i s', i < j -> filter P l !! i = Some s' -> exists k', k' < k /\ l !! k' = Some s').
    { clear Hp l. induction l as [|t l IH]; intros j s Hj; [done|]. rewrite filter_cons in *. destruct (decide (P t)) as [Ht|Ht].
      - destruct j as [|j]; cbn in Hj.
        + simplify_eq. exists 0. split; [done|]. intros i s' Hi. lia.
        + destruct (IH _ _ Hj) as (k & Hk & Hlt). exists (S k). split; [done|]. intros i s' Hi Hs'.
          destruct i as [|i]; cbn in Hs'.
          * simplify_eq. exists 0. split; [lia|done].
          * destruct (Hlt i s') as (k' & Hk' & E); [lia|done|]. exists (S k'). split; [lia|done].
      - destruct (IH _ _ Hj) as (k & Hk & Hlt). exists (S k). split; [done|]. intros i s' Hi Hs'.
        destruct (Hlt i s' Hi Hs') as (k' & Hk' & E). exists (S k'). split; [lia|done]. }
    intros j s Hj. destruct (Hsub l j s Hj) as (k & Hk & Hlt). destruct (Hp _ _ Hk) as [A B].
    assert (Hap : forall x, apart thr l k x -> apart thr (filter P l) j x).
    { intros x Ha i s' Hi Hs'. destruct (Hlt i s' Hi Hs') as (k' & Hk' & E). by apply (Ha k' s'). }
    split; [by apply Hap|]. intros x Hx. destruct (B x Hx) as [B1 B2]. split; [by apply Hap|done].
  Qed.
End placing.
