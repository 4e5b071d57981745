From Coq Require Import Reals Lra.
From Verif Require Import Base BaseLemmas Shuffle_Model Shuffle_Spec Sort_Model Neat_Model Neat_Spec Neat_Proofs Tidy_Proofs.
From Verif Require Import Neat6_Proofs Species_Model Species_Spec.
Open Scope nat_scope.

Lemma total_perm l l' : l ≡ₚ l' -> total l = total l'.
Proof.
  unfold total. intros H. induction H as [|x l l' H IH|x y l|l l' l'' H1 IH1 H2 IH2]; cbn; [done| | |congruence].
  - by rewrite IH.
  - lra.
Qed.

Lemma mapM_rd_all {A} (l : list A) ks cs :
  mapM (rd l) ks = Some cs -> ks ≡ₚ seq 0 (length l) -> cs ≡ₚ l.
Proof.
  intros E P. destruct (mapM_perm (rd l) ks (seq 0 (length l)) P cs E) as (cs' & E' & P').
  rewrite mapM_rd_seq in E'. apply (inj Some) in E'. by subst cs'.
Qed.

Lemma pointers_all {A} (l : list A) ks :
  ks ≡ₚ seq 0 (length l) -> exists cs, mapM (rd l) ks = Some cs /\ cs ≡ₚ l.
Proof.
  intros P. destruct (mapM_perm (rd l) (seq 0 (length l)) ks (symmetry P) l (mapM_rd_seq l)) as (cs & E & P').
  by exists cs.
Qed.

Section distance.
  Context (nc : nat).
  Implicit Types g h : genome R.

  Definition numbered (cs : list (conn R)) : Prop := Forall (fun c => 1 <= c_inn c <= nc) cs.

  Lemma presence_ok g ks cs :
    mapM (rd (g_conns g)) ks = Some cs -> numbered cs ->
    exists arr, presence g nc ks = Some (arr, foldr Nat.max 0 (c_inn <$> cs)) /\ length arr = nc /\
      forall p, p < nc -> arr !! p = Some (bool_decide (S p ∈ c_inn <$> cs)).
  Proof.
    unfold presence.
    cut (forall s, mapM (rd (g_conns g)) ks = Some cs -> numbered cs -> length (fst s) = nc ->
      exists arr, each (fun s k => c ← rd (g_conns g) k; p ← minus_one (c_inn c); a ← wr (fst s) p true;
                   Some (a, if decide (snd s < c_inn c) then c_inn c else snd s)) ks s
          = Some (arr, Nat.max (snd s) (foldr Nat.max 0 (c_inn <$> cs))) /\ length arr = nc /\
        forall p b, fst s !! p = Some b -> arr !! p = Some (b || bool_decide (S p ∈ c_inn <$> cs))).
    { intros H E Hn. destruct (H (replicate nc false, 0) E Hn) as (arr & E' & Hl & Ha); [apply replicate_length|].
      exists arr. split; [done|]. split; [done|]. intros p Hp. apply (Ha p false). cbn. by apply lookup_replicate_2. }
    revert cs. induction ks as [|k ks IH]; intros cs s E Hn Hl.
    - apply (inj Some) in E. subst cs. exists (fst s). cbn. rewrite Nat.max_0_r. split; [by destruct s|]. split; [done|].
      intros p b Hb. rewrite Hb. by rewrite orb_false_r.
    - apply mapM_cons_inv in E as (c & cs' & Ec & E & ->). apply list.Forall_cons in Hn as [Hc Hn].
      cbn [each]. rewrite Ec. cbn [mbind option_bind].
      destruct (c_inn c) as [|p] eqn:Ei; [lia|]. cbn [minus_one mbind option_bind].
      rewrite wr_Some by lia. cbn [mbind option_bind].
      destruct (IH cs' (<[p:=true]> (fst s), if decide (snd s < S p) then S p else snd s) E Hn) as (arr & E' & Hl' & Ha).
      { cbn. by rewrite insert_length. }
      exists arr. rewrite E'. cbn [snd fst]. split; [|split; [done|]].
      + f_equal. f_equal. cbn [fmap list_fmap foldr]. rewrite Ei. case_decide; cbn [foldr]; lia.
      + intros q b Hb. cbn [fst] in Ha. destruct (decide (q = p)) as [->|Hne].
        * rewrite (Ha p true) by (apply list_lookup_insert; by apply lookup_lt_Some in Hb).
          f_equal. symmetry. apply orb_true_iff. right. apply bool_decide_eq_true. cbn. rewrite Ei. left.
        * rewrite (Ha q b) by (by rewrite list_lookup_insert_ne by congruence). f_equal. f_equal.
          apply bool_decide_ext. cbn. rewrite Ei, elem_of_cons. split; [by right|]. intros [?|?]; [|done]. simplify_eq.
  Qed.

  Lemma expressed_perm cs cs' num : cs ≡ₚ cs' -> NoDup (c_inn <$> cs) -> expressed cs num = expressed cs' num.
  Proof.
    intros H. induction H as [|x l l' H IH|x y l|l l' l'' H1 IH1 H2 IH2]; intros Hnd; cbn in *.
    - done.
    - apply list.NoDup_cons in Hnd as [_ Hnd]. by rewrite IH.
    - apply list.NoDup_cons in Hnd as [Hx _]. case_decide as E1; case_decide as E2; try done.
      exfalso. apply Hx. rewrite E1, <- E2. left.
    - rewrite IH1 by done. apply IH2. by rewrite <- H1.
  Qed.

  Lemma difference_ok h c ks cs :
    mapM (rd (g_conns h)) ks = Some cs -> c_inn c ∈ c_inn <$> cs ->
    difference h c ks = Some (Rabs (used_weight c - expressed cs (c_inn c))).
  Proof.
    revert cs. induction ks as [|k ks IH]; intros cs E Hin.
    - apply (inj Some) in E. subst cs. by apply elem_of_nil in Hin.
    - apply mapM_cons_inv in E as (d & cs' & Ed & E & ->). cbn [difference]. rewrite Ed. cbn [mbind option_bind expressed].
      destruct (decide (c_inn c = c_inn d)) as [Eq|Hne].
      + rewrite decide_True by done. f_equal. cbv zeta. change (if c_flag d then c_weight d else 0%R) with (used_weight d).
        unfold Rabs. destruct (Rcase_abs _), (Rlt_dec _ _); lra.
      + rewrite decide_False by done. apply IH; [done|]. cbn in Hin. by apply elem_of_cons in Hin as [?|?].
  Qed.

  Lemma compare_ok g h ks hs cs ds arr s :
    mapM (rd (g_conns g)) ks = Some cs -> mapM (rd (g_conns h)) hs = Some ds -> numbered cs ->
    (forall p, p < nc -> arr !! p = Some (bool_decide (S p ∈ c_inn <$> ds))) ->
    each (compare_gene g h hs arr (foldr Nat.max 0 (c_inn <$> ds))) ks s =
    Some (mkTally
      (t_excess s + length (filter (fun n => n ∉ c_inn <$> ds /\ foldr Nat.max 0 (c_inn <$> ds) < n) (c_inn <$> cs)))
      (t_disjoint s + length (filter (fun n => n ∉ c_inn <$> ds /\ n <= foldr Nat.max 0 (c_inn <$> ds)) (c_inn <$> cs)))
      (t_matching s + length (filter (fun c => c_inn c ∈ c_inn <$> ds) cs))
      (t_m s + total ((fun c => Rabs (used_weight c - expressed ds (c_inn c))) <$> filter (fun c => c_inn c ∈ c_inn <$> ds) cs))%R).
  Proof.
    intros Ecs Eds. revert cs s Ecs. induction ks as [|k ks IH]; intros cs s Ecs Hn Harr.
    - apply (inj Some) in Ecs. subst cs. cbn. rewrite !Nat.add_0_r, Rplus_0_r. by destruct s.
    - apply mapM_cons_inv in Ecs as (c & cs' & Ec & Ecs & ->). apply list.Forall_cons in Hn as [Hc Hn].
      destruct (c_inn c) as [|p] eqn:Ei; [lia|].
      assert (Estep : compare_gene g h hs arr (foldr Nat.max 0 (c_inn <$> ds)) s k =
        if (bool_decide (S p ∈ c_inn <$> ds)) then
          d ← difference h c hs; Some (mkTally (t_excess s) (t_disjoint s) (t_matching s + 1) (t_m s + d)%R)
        else if decide (foldr Nat.max 0 (c_inn <$> ds) < S p)
          then Some (mkTally (t_excess s + 1) (t_disjoint s) (t_matching s) (t_m s))
          else Some (mkTally (t_excess s) (t_disjoint s + 1) (t_matching s) (t_m s))).
      { unfold compare_gene. rewrite Ec. cbn [mbind option_bind]. rewrite Ei. cbn [minus_one mbind option_bind].
        rewrite (rd_lookup arr p), Harr by lia. done. }
      cbn [each]. rewrite Estep.
      cbn [fmap list_fmap]. rewrite !filter_cons. rewrite Ei.
      destruct (decide (S p ∈ c_inn <$> ds)) as [Hin|Hout].
      + rewrite bool_decide_eq_true_2 by done. rewrite (difference_ok h c hs ds) by (rewrite ?Ei; done).
        cbn [mbind option_bind]. rewrite (IH cs') by done. cbn [t_excess t_disjoint t_matching t_m].
        rewrite !(decide_False (P := _ /\ _)) by tauto. 
        cbn [length fmap list_fmap total foldr]. f_equal. f_equal; [lia|].
        change (foldr Rplus 0%R ?l) with (total l). lra.
      + rewrite bool_decide_eq_false_2 by done.
        destruct (decide (foldr Nat.max 0 (c_inn <$> ds) < S p)) as [Hlt|Hge]; cbn [mbind option_bind]; rewrite (IH cs') by done;
          cbn [t_excess t_disjoint t_matching t_m]; f_equal.
        * rewrite (decide_True (P := _ /\ _ < _)) by done. rewrite (decide_False (P := _ /\ _ <= _)) by lia.
          cbn [length]. f_equal; lia.
        * rewrite (decide_False (P := _ /\ _ < _)) by lia. rewrite (decide_True (P := _ /\ _ <= _)) by (split; [done|lia]).
          cbn [length]. f_equal; lia.
  Qed.
End distance.

Lemma foldr_max_perm l l' : l ≡ₚ l' -> foldr Nat.max 0 l = foldr Nat.max 0 l'.
Proof.
  intros H. induction H as [|x l l' H IH|x y l|l l' l'' H1 IH1 H2 IH2]; cbn; [done|lia|lia|congruence].
Qed.

Lemma foldr_max_ge l x : x ∈ l -> x <= foldr Nat.max 0 l.
Proof.
  induction l as [|y l IH]; intros H; [by apply elem_of_nil in H|]. cbn. apply elem_of_cons in H as [->|H]; [lia|].
  specialize (IH H). lia.
Qed.

Lemma foldr_max_in l : l <> [] -> Forall (fun x => 1 <= x) l -> foldr Nat.max 0 l ∈ l.
Proof.
  induction l as [|y l IH]; intros H Hp; [done|]. apply list.Forall_cons in Hp as [Hy Hp]. cbn.
  destruct l as [|z l]; [cbn; rewrite Nat.max_0_r; left|]. specialize (IH ltac:(done) Hp).
  destruct (Nat.max_spec y (foldr Nat.max 0 (z :: l))) as [[_ ->]|[_ ->]]; [by right|left].
Qed.

Lemma expressed_in cs c : NoDup (c_inn <$> cs) -> c ∈ cs -> expressed cs (c_inn c) = used_weight c.
Proof.
  induction cs as [|d cs IH]; intros Hnd Hin; [by apply elem_of_nil in Hin|]. cbn in *.
  apply list.NoDup_cons in Hnd as [Hd Hnd]. apply elem_of_cons in Hin as [->|Hin].
  - rewrite decide_True by done. done.
  - rewrite decide_False; [by apply IH|]. intros E. apply Hd. rewrite E. by apply elem_of_list_fmap_1.
Qed.

Lemma filter_fmap {A B} (f : A -> B) (P : B -> Prop) `{!forall x, Decision (P x)} (l : list A) :
  filter P (f <$> l) = f <$> filter (fun x => P (f x)) l.
Proof.
  induction l as [|x l IH]; [done|]. rewrite fmap_cons, !filter_cons. case_decide; [rewrite fmap_cons|]; by rewrite IH.
Qed.

Lemma filter_perm_length {A} (P : A -> Prop) `{!forall x, Decision (P x)} (l l' : list A) :
  l ≡ₚ l' -> length (filter P l) = length (filter P l').
Proof. intros Hl. apply Permutation_length. by rewrite Hl. Qed.

Lemma filter_ext_list {A} (P Q : A -> Prop) `{!forall x, Decision (P x)} `{!forall x, Decision (Q x)} (l : list A) :
  (forall x, x ∈ l -> P x <-> Q x) -> filter P l = filter Q l.
Proof.
  induction l as [|x l IH]; intros Hx; [done|]. rewrite !filter_cons. rewrite IH by (intros; apply Hx; by right).
  destruct (decide (P x)) as [HP|HP], (decide (Q x)) as [HQ|HQ]; try done; exfalso.
  - apply HQ. apply Hx; [left|done].
  - apply HP. apply Hx; [left|done].
Qed.

Lemma numbers_bound ip op G g :
  consistent ip op G -> well_formed ip op G g -> numbered (gl_conns G) (g_conns g).
Proof.
  intros HG Hw. apply list.Forall_forall. intros c Hc. apply elem_of_list_lookup in Hc as [k Hk].
  destruct (wf_ends _ _ _ _ Hw _ _ Hk) as (p & x & y & -> & _ & _ & Hp).
  apply lookup_lt_Some in Hp. rewrite (co_conns _ _ _ HG) in Hp. lia.
Qed.

Lemma one_sided_ok nc g h ks hs arr cs ds :
  mapM (rd (g_conns g)) ks = Some cs -> mapM (rd (g_conns h)) hs = Some ds ->
  cs ≡ₚ g_conns g -> ds ≡ₚ g_conns h -> NoDup (numbers g) -> NoDup (numbers h) ->
  numbered nc (g_conns g) ->
  (forall p, p < nc -> arr !! p = Some (bool_decide (S p ∈ c_inn <$> ds))) ->
  exists t, each (compare_gene g h hs arr (foldr Nat.max 0 (c_inn <$> ds))) ks (mkTally 0 0 0 0) = Some t /\
    t_excess t = length (excess g h) /\ t_disjoint t = length (disjoint g h) /\
    (if decide (t_matching t = 0) then t_m t else (t_m t / INR (t_matching t))%R) = weight_difference g h.
Proof.
  intros E1 E2 P1 P2 N1 N2 Hn Harr.
  assert (Pn1 : c_inn <$> cs ≡ₚ numbers g) by (unfold numbers; by rewrite P1).
  assert (Pn2 : c_inn <$> ds ≡ₚ numbers h) by (unfold numbers; by rewrite P2).
  assert (Em : foldr Nat.max 0 (c_inn <$> ds) = last_number h) by (by apply foldr_max_perm).
  assert (Hncs : numbered nc cs) by (unfold numbered; by rewrite P1).
  rewrite (compare_ok nc g h ks hs cs ds arr (mkTally 0 0 0 0) E1 E2 Hncs Harr).
  eexists. split; [done|]. cbn [t_excess t_disjoint t_matching t_m Nat.add]. rewrite Em.
  assert (Hin : forall x, x ∈ c_inn <$> ds <-> x ∈ numbers h) by (intros x; by rewrite Pn2).
  split; [|split].
  - rewrite (filter_perm_length _ _ _ Pn1). unfold excess. f_equal. apply filter_ext_list. intros x _. by rewrite Hin.
  - rewrite (filter_perm_length _ _ _ Pn1). unfold disjoint. f_equal. apply filter_ext_list. intros x _. by rewrite Hin.
  - assert (Ndcs : NoDup (c_inn <$> cs)) by (by rewrite Pn1).
    assert (Ndds : NoDup (c_inn <$> ds)) by (by rewrite Pn2).
    set (A := filter (fun c : conn R => c_inn c ∈ c_inn <$> ds) cs).
    assert (PA : c_inn <$> A ≡ₚ common g h).
    { assert (EA : c_inn <$> A = filter (fun n => n ∈ c_inn <$> ds) (c_inn <$> cs)).
      { symmetry. exact (filter_fmap c_inn (fun n => n ∈ c_inn <$> ds) cs). }
      rewrite EA. unfold common. rewrite Pn1.
      by rewrite (filter_ext_list (fun n => n ∈ c_inn <$> ds) (fun n => n ∈ numbers h)) by (intros; apply Hin). }
    assert (EA : (fun c => Rabs (used_weight c - expressed ds (c_inn c))) <$> A =
                 (fun n => Rabs (expressed (g_conns g) n - expressed (g_conns h) n)) <$> (c_inn <$> A)).
    { rewrite <- list_fmap_compose. apply list_fmap_ext. intros i c Hc. cbn.
      assert (Hc' : c ∈ cs).
      { apply elem_of_list_lookup_2 in Hc. by apply elem_of_list_filter in Hc as [_ ?]. }
      rewrite <- (expressed_perm cs (g_conns g)) by done. rewrite (expressed_in cs c) by done.
      by rewrite (expressed_perm ds (g_conns h)). }
    rewrite EA. unfold weight_difference, mean.
    set (F := fun n => Rabs (expressed (g_conns g) n - expressed (g_conns h) n)).
    rewrite (total_perm (F <$> (c_inn <$> A)) (F <$> common g h)) by (by rewrite PA).
    assert (EL : length A = length (F <$> common g h)).
    { rewrite fmap_length, <- (Permutation_length PA), fmap_length. done. }
    rewrite EL. rewrite Rplus_0_l.
    destruct (F <$> common g h) as [|x l] eqn:El; cbn [length].
    + by rewrite !decide_True by done.
    + by rewrite !decide_False by done.
Qed.

Lemma divisor_sym ip op G g h :
  well_formed ip op G g -> well_formed ip op G h -> divisor g h = divisor h g.
Proof.
  intros H1 H2. unfold divisor. rewrite (Nat.max_comm (length (numbers g))).
  by rewrite (wf_input _ _ _ _ H1), (wf_output _ _ _ _ H1), (wf_input _ _ _ _ H2), (wf_output _ _ _ _ H2).
Qed.

Lemma distance_ok ip op G g1 g2 :
  consistent ip op G -> well_formed ip op G g1 -> well_formed ip op G g2 ->
  compute_species_distance g1 g2 (gl_conns G) =
  Some (if decide (last_number g1 < last_number g2) then one_sided_distance g2 g1 else one_sided_distance g1 g2).
Proof.
  intros HG H1 H2. unfold compute_species_distance.
  destruct (get_connections_ok ip op G g1 HG H1) as (c1 & E1 & P1).
  destruct (get_connections_ok ip op G g2 HG H2) as (c2 & E2 & P2).
  rewrite E1. cbn [mbind option_bind]. rewrite E2. cbn [mbind option_bind].
  destruct (pointers_all _ _ P1) as (cs1 & M1 & Q1). destruct (pointers_all _ _ P2) as (cs2 & M2 & Q2).
  pose proof (numbers_bound _ _ _ _ HG H1) as B1. pose proof (numbers_bound _ _ _ _ HG H2) as B2.
  destruct (presence_ok (gl_conns G) g1 c1 cs1 M1) as (a1 & -> & _ & A1); [unfold numbered; by rewrite Q1|].
  cbn [mbind option_bind].
  destruct (presence_ok (gl_conns G) g2 c2 cs2 M2) as (a2 & -> & _ & A2); [unfold numbered; by rewrite Q2|].
  cbn [mbind option_bind snd fst].
  assert (T1 : foldr Nat.max 0 (c_inn <$> cs1) = last_number g1) by (apply foldr_max_perm; by rewrite Q1).
  assert (T2 : foldr Nat.max 0 (c_inn <$> cs2) = last_number g2) by (apply foldr_max_perm; by rewrite Q2).
  assert (L1 : length c1 = length (numbers g1)).
  { unfold numbers. by rewrite fmap_length, (Permutation_length P1), seq_length. }
  assert (L2 : length c2 = length (numbers g2)).
  { unfold numbers. by rewrite fmap_length, (Permutation_length P2), seq_length. }
  set (mn := if decide (length c2 < length c1) then length c1 else length c2). cbv zeta.
  assert (Emn : mn = Nat.max (length (numbers g1)) (length (numbers g2))).
  { unfold mn. rewrite L1, L2. case_decide; lia. }
  set (dv := if decide (mn < 20 + g_input g1 * g_output g1) then 1 else mn).
  assert (Edv : dv = divisor g1 g2) by (unfold dv, divisor; rewrite Emn; done).
  rewrite Edv. rewrite T1, T2. case_decide as Hlt.
  - destruct (one_sided_ok (gl_conns G) g2 g1 c2 c1 a1 cs2 cs1) as (t & Et & X1 & X2 & X3); try done.
    { apply (wf_genes _ _ _ _ H2). } { apply (wf_genes _ _ _ _ H1). }
    rewrite T1 in Et. rewrite Et. cbn [mbind option_bind]. f_equal. rewrite X3, X1, X2. unfold one_sided_distance.
    rewrite (divisor_sym _ _ _ _ _ H1 H2). unfold Rdiv. ring.
  - destruct (one_sided_ok (gl_conns G) g1 g2 c1 c2 a2 cs1 cs2) as (t & Et & X1 & X2 & X3); try done.
    { apply (wf_genes _ _ _ _ H1). } { apply (wf_genes _ _ _ _ H2). }
    rewrite T2 in Et. rewrite Et. cbn [mbind option_bind]. f_equal. rewrite X3, X1, X2. unfold one_sided_distance.
    unfold Rdiv. ring.
Qed.
