From Coq Require Import Reals Lra.
From Verif Require Import Base BaseLemmas Shuffle_Model Shuffle_Spec Shuffle_Proofs Sort_Model Sort_Proofs Neat_Model Neat_Spec Neat_Proofs Tidy_Proofs.
From Verif Require Import Neat2_Proofs Neat3_Proofs Neat4_Proofs Neat5_Proofs Neat6_Proofs Species_Model Species_Spec Species_Proofs Species2_Proofs.
From Verif Require Import Gen_Model Gen_Spec Gen_Proofs.
Open Scope nat_scope.

(** ** Lists of species *)

(** same representative, members, age and best fitness *)
Definition like (s s' : specie) : Prop :=
  s_rep s' = s_rep s /\ s_members s' = s_members s /\ s_age s' = s_age s /\ s_best s' = s_best s.

Lemma well_placed_rel thr l l' :
  Forall2 (fun s s' => s_rep s' = s_rep s /\ forall x, x ∈ s_members s' -> x ∈ s_members s) l l' ->
  well_placed thr l -> well_placed thr l'.
Proof.
  intros F Hp j s' Hj. destruct (Forall2_lookup_r _ _ _ _ _ F Hj) as (s & Hs & Er & Hm). destruct (Hp _ _ Hs) as [A B].
  assert (Hap : forall x, apart thr l j x -> apart thr l' j x).
  { intros x Ha i t' Hi Ht'. destruct (Forall2_lookup_r _ _ _ _ _ F Ht') as (t & Ht & Et & _). unfold distance_to. rewrite Et. by apply (Ha i t). }
  rewrite Er. split; [by apply Hap|]. intros x Hx. destruct (B x (Hm x Hx)) as [B1 B2]. split; [by apply Hap|].
  unfold distance_to. by rewrite Er.
Qed.

Lemma fine_specie_extend ip op G G' l :
  extends G G' -> Forall (fine_specie ip op G) l -> Forall (fine_specie ip op G') l.
Proof.
  intros He Hl. eapply list.Forall_impl; [exact Hl|]. intros s [H1 H2]. split; [by eapply fine_extend|by eapply fine_extend_all].
Qed.

Lemma list_nonempty {A} (l : list A) : l <> [] -> exists x t, l = x :: t.
Proof. destruct l as [|x t]; [done|]. eauto. Qed.

Lemma members_delete l : members (delete_empty l) = members l.
Proof.
  induction l as [|s l IH]; [done|]. unfold delete_empty in *. rewrite filter_cons. rewrite members_cons. case_decide as E.
  - by rewrite members_cons, IH.
  - rewrite IH. by rewrite E.
Qed.

Lemma members_length l : (forall s, s ∈ l -> s_members s <> []) -> length l <= length (members l).
Proof.
  induction l as [|s l IH]; intros H; [done|]. rewrite members_cons, app_length.
  assert (length l <= length (members l)) by (apply IH; intros t Ht; apply H; by constructor).
  assert (s_members s <> []) by (apply H; constructor). destruct (s_members s); [done|]. cbn. lia.
Qed.

Lemma Forall2_same {A B} (P : A -> B -> Prop) (f : A -> B) l : (forall x, P x (f x)) -> Forall2 P l (f <$> l).
Proof. intros H. induction l; cbn; constructor; auto. Qed.

(** ** Speciation *)

Section speciation.
  Context (c : settings) (ip op : nat) (G : globals) (HG : consistent ip op G).

  Lemma speciate_ok lk gs l :
    possible_gen lk -> Forall (fine ip op G) gs -> Forall (fine_specie ip op G) l -> well_placed (threshold c) l ->
    exists l' gs' copies, speciate c lk (gl_conns G) gs l = Some l' /\ Forall (fine_specie ip op G) l' /\
      well_placed (threshold c) l' /\ (forall s, s ∈ l' -> s_members s <> []) /\
      gs' ≡ₚ gs /\ Forall2 twin gs' copies /\ (members l' ≡ₚ members l ++ copies).
  Proof using HG.
    intros (Hr & _) Hgs Hl Hp. unfold speciate, put_genome_in_species.
    destruct (shuffle_some (lk_rmax lk) (lk_place lk) gs Hr) as (gs' & -> & P). cbn [mbind option_bind].
    set (f := fun s => mkSpecie (s_rep s) (s_members s) (s_age s + 1) (s_best s) (s_rip s)).
    assert (Hl1 : Forall (fine_specie ip op G) (f <$> l)).
    { apply list.Forall_fmap. exact Hl. }
    assert (Hp1 : well_placed (threshold c) (f <$> l)) by (apply well_placed_map; done).
    destruct (place_all_ok ip op G HG (threshold c) gs' (f <$> l) Hl1 ltac:(by rewrite P) Hp1) as (l2 & copies & -> & Hl2 & Hp2 & F & P2).
    cbn [mbind option_bind]. exists (delete_empty l2), gs', copies.
    assert (Em : members (f <$> l) = members l).
    { unfold members. f_equal. rewrite <- list_fmap_compose. by apply list_fmap_ext. }
    split; [done|]. split; [|split; [by apply well_placed_filter|split]].
    - apply list.Forall_forall. intros s Hs. apply elem_of_list_filter in Hs as [_ Hs]. rewrite list.Forall_forall in Hl2. by apply Hl2.
    - intros s Hs. by apply elem_of_list_filter in Hs as [? _].
    - rewrite members_delete, P2, Em. done.
  Qed.

  Lemma cut_ok gs :
    Forall (fine ip op G) gs ->
    exists gs' rest, cut c gs = Some gs' /\ gs' ++ rest ≡ₚ gs /\ Forall (fine ip op G) gs' /\ length gs' = Nat.min (max_pop c) (length gs).
  Proof.
    intros Hgs. unfold cut. case_decide as Hd.
    - destruct (sort_by_fitness_ok gs) as (gs1 & -> & P). cbn [mbind option_bind].
      exists (take (max_pop c) gs1), (drop (max_pop c) gs1). split; [done|]. rewrite take_drop. split; [done|]. split.
      + apply Forall_take. by rewrite P.
      + by rewrite take_length, (Permutation_length P).
    - exists gs, []. split; [done|]. rewrite app_nil_r. split; [done|]. split; [done|]. lia.
  Qed.

  Lemma rescale_fine worst best gs : Forall (fine ip op G) gs -> Forall (fine ip op G) (rescale worst best gs).
  Proof. intros H. unfold rescale. apply list.Forall_fmap. exact H. Qed.
End speciation.

(** ** Reproduction *)

Section reproduction.
  Context (c : settings) (ip op initial : nat) (Hv : valid c ip op initial).

  Lemma capacity_large : 2 * max_pop c <= capacity c /\ children c * (100 * max_pop c) + 3 * max_pop c + 1 <= capacity c.
  Proof using Hv. destruct Hv. unfold capacity. split; nia. Qed.

  Lemma breed_species_ok lk n_sp b st s :
    possible_gen lk -> consistent ip op (b_globals st) -> fine_specie ip op (b_globals st) s -> s_members s <> [] ->
    Forall (fine ip op (b_globals st)) (b_gg st) -> Forall (fine ip op (b_globals st)) (b_champions st) ->
    (0 <= b_a st)%R -> (0 <= b)%R -> length (b_gg st) + 50 * children c <= capacity c -> length (b_champions st) < capacity c ->
    exists st' s', breed_species c lk n_sp b st s = Some st' /\ b_species st' = b_species st ++ [s'] /\ like s s' /\
      extends (b_globals st) (b_globals st') /\ consistent ip op (b_globals st') /\
      Forall (fine ip op (b_globals st')) (b_gg st') /\ Forall (fine ip op (b_globals st')) (b_champions st') /\
      (0 <= b_a st')%R /\
      length (b_gg st) + children c <= length (b_gg st') <= length (b_gg st) + 50 * children c /\
      length (b_champions st) <= length (b_champions st') <= length (b_champions st) + 1.
  Proof using Hv.
    intros Hlk HG [Hrep Hms] Hne Hgg Hch Ha Hb Hcap Hcap2. destruct Hv as [V1 V2 V3 V4 V5 V6]. unfold breed_species.
    destruct (relative_ok _ _ Ha Hb) as [Ha' Hb']. destruct (relative (b_a st) b) as [a b'] eqn:Er. cbn [fst snd] in *.
    destruct (sort_by_fitness_ok (s_members s)) as (ms & -> & P). cbn [mbind option_bind].
    assert (Hrip : i_rip (s_rep s) = 0%Z) by apply Hrep. rewrite Hrip.
    rewrite decide_True by lia.
    assert (Hfms : Forall (fine ip op (b_globals st)) ms) by by rewrite P.
    destruct (list_nonempty ms) as (m0 & tl & Ems); [intros ->; by apply Permutation_nil in P|].
    assert (Hm0 : fine ip op (b_globals st) m0) by (rewrite Ems in Hfms; by inversion Hfms).
    assert (E0 : rd ms 0 = Some m0) by by rewrite Ems. rewrite E0. cbn [mbind option_bind].
    rewrite bool_decide_eq_false_2 by lia. cbn [andb].
    match goal with |- context [if Rle_dec a b' then ?A else ?B] =>
      assert (Hs : exists ch, (if Rle_dec a b' then A else B) = Some ch /\ Forall (fine ip op (b_globals st)) ch /\
                 length (b_champions st) <= length ch <= length (b_champions st) + 1) end.
    { destruct (Rle_dec a b').
      - destruct (copy_individual_ok ip op _ m0 Hm0) as (m & -> & Hm & _). cbn [mbind option_bind]. unfold push.
        rewrite decide_True by done. eexists. split; [done|]. split; [apply Forall_app; split; [done|by apply list.Forall_singleton]|].
        rewrite app_length. cbn. lia.
      - eexists. split; [done|]. split; [done|]. lia. }
    destruct Hs as (ch & -> & Hch' & Lch). cbn [mbind option_bind].
    set (T := (Z.of_nat (children c) * round_up (b' * (5 / 2)))%Z).
    assert (HT : (Z.of_nat (children c) <= T <= Z.of_nat (50 * children c))%Z).
    { assert (1 <= round_up (b' * (5 / 2)) <= 50)%Z.
      { split; [apply round_up_pos; lra|apply round_up_le; lra]. }
      unfold T. nia. }
    assert (Hlen : 1 <= length ms) by (rewrite Ems; cbn; lia).
    destruct (breed_ok c ip op V1 V2 lk (i_rip (s_rep s)) ms T (round_up (INR (length ms) * survivors c)) (Z.to_nat T + 1) 0
                (b_globals st) (b_gg st) Hlk HG Hfms Hgg) as (G' & gg' & E & He & HG' & Hgg' & L).
    { assert (1 <= INR (length ms))%R by (apply (le_INR 1); lia). split.
      - apply round_up_pos. apply Rmult_lt_0_compat; lra.
      - apply round_up_le; [apply Rmult_le_pos; lra|]. rewrite <- INR_IZR_INZ. nra. }
    { lia. }
    { lia. }
    rewrite E. cbn [mbind option_bind fst snd]. eexists _, _. split; [done|]. cbn. split; [done|]. split; [done|].
    split; [done|]. split; [done|]. split; [done|]. split; [by eapply fine_extend_all|]. split; [done|]. lia.
  Qed.

  Lemma breed_all_ok lk n_sp F G0 l : forall st,
    possible_gen lk -> consistent ip op (b_globals st) -> extends G0 (b_globals st) -> Forall (fine_specie ip op G0) l ->
    (forall s, s ∈ l -> s_members s <> []) ->
    Forall (fine ip op (b_globals st)) (b_gg st) -> Forall (fine ip op (b_globals st)) (b_champions st) ->
    (0 <= b_a st)%R -> (forall s, s ∈ l -> (0 <= F s)%R) ->
    length (b_gg st) + length l * (50 * children c) <= capacity c -> length (b_champions st) + length l <= capacity c ->
    exists st' l', each (fun st s => breed_species c lk n_sp (F s) st s) l st = Some st' /\ b_species st' = b_species st ++ l' /\ Forall2 like l l' /\
      extends G0 (b_globals st') /\ consistent ip op (b_globals st') /\
      Forall (fine ip op (b_globals st')) (b_gg st') /\ Forall (fine ip op (b_globals st')) (b_champions st') /\
      length (b_gg st) + length l * children c <= length (b_gg st') <= length (b_gg st) + length l * (50 * children c) /\
      length (b_champions st') <= length (b_champions st) + length l.
  Proof using Hv.
    induction l as [|s l IH]; intros st Hlk HG He Hl Hne Hgg Hch Ha HF Hcap Hcap2.
    - exists st, []. cbn. rewrite app_nil_r. split; [done|]. split; [done|]. split; [done|]. split; [done|]. split; [done|]. split; [done|].
      split; [done|]. lia.
    - pose proof (fine_specie_extend _ _ _ _ _ He Hl) as Hl'. apply list.Forall_cons in Hl as [_ Hl]. apply list.Forall_cons in Hl' as [Hs _].
      cbn [length] in Hcap, Hcap2.
      destruct (breed_species_ok lk n_sp (F s) st s) as (st1 & s1 & E1 & Es1 & Li1 & He1 & HG1 & Hgg1 & Hch1 & Ha1 & L1 & L2); try done.
      { apply Hne. constructor. } { apply HF. constructor. } { lia. } { lia. }
      destruct (IH st1) as (st2 & l2 & E2 & Es2 & Li2 & He2 & HG2 & Hgg2 & Hch2 & L3 & L4); try done.
      { by eapply extends_trans. } { intros t Ht. apply Hne. by constructor. } { intros t Ht. apply HF. by constructor. } { lia. } { lia. }
      exists st2, (s1 :: l2). cbn [each]. rewrite E1. cbn [mbind option_bind]. split; [done|].
      split; [rewrite Es2, Es1, <- app_assoc; done|]. split; [by constructor|]. split; [done|]. split; [done|]. split; [done|]. split; [done|].
      cbn [length]. lia.
  Qed.

  Lemma keep_ok G ch : forall gg,
    Forall (fine ip op G) ch -> Forall (fine ip op G) gg -> length gg + length ch <= capacity c ->
    exists gg', each (fun gg x => y ← copy_individual x; push c gg y) ch gg = Some gg' /\ Forall (fine ip op G) gg' /\
      length gg' = length gg + length ch.
  Proof.
    induction ch as [|x ch IH]; intros gg Hch Hgg Hcap.
    - exists gg. cbn. split; [done|]. split; [done|]. lia.
    - apply list.Forall_cons in Hch as [Hx Hch]. cbn [each length] in *.
      destruct (copy_individual_ok ip op _ x Hx) as (y & -> & Hy & _). cbn [mbind option_bind].
      assert (Ep : push c gg y = Some (gg ++ [y])) by (unfold push; rewrite decide_True by lia; done).
      rewrite Ep. cbn [mbind option_bind].
      destruct (IH (gg ++ [y])) as (gg' & -> & H1 & H2); [done|apply Forall_app; split; [done|by apply list.Forall_singleton]|rewrite app_length; cbn; lia|].
      exists gg'. split; [done|]. split; [done|]. rewrite app_length in H2. cbn in H2. lia.
  Qed.

  Lemma cross_ok lk G ch gg :
    possible_gen lk -> consistent ip op G -> Forall (fine ip op G) ch -> Forall (fine ip op G) gg ->
    length gg + length ch <= capacity c ->
    exists gg', cross_champions c lk G ch gg = Some gg' /\ Forall (fine ip op G) gg' /\
      length gg <= length gg' <= length gg + length ch.
  Proof.
    intros (_ & Hr & _) HG Hch Hgg Hcap. unfold cross_champions. case_decide as Hd.
    - destruct (shuffle_some (lk_rmax lk) (lk_pairs lk) ch Hr) as (ch' & -> & P). cbn [mbind option_bind].
      assert (Hch' : Forall (fine ip op G) ch') by by rewrite P. pose proof (Permutation_length P) as Lp.
      assert (Hdiv : 2 * (length ch' / 2) <= length ch') by (apply Nat.mul_div_le; lia).
      pose (Q := fun (i : nat) (g : list individual) => Forall (fine ip op G) g /\ length gg <= length g <= length gg + i).
      match goal with |- context [for_loop ?n 0 ?b ?s] => destruct (for_loop_inv Q b n 0 s) as (gg' & E & H1 & H2) end.
      + split; [done|]. lia.
      + intros i g Hi [Hg Lg]. destruct (lk_cross lk i).
        * destruct (lookup_lt_is_Some_2 ch' (2 * i)) as [x Hx]; [lia|]. destruct (lookup_lt_is_Some_2 ch' (2 * i + 1)) as [y Hy]; [lia|].
          unfold rd. rewrite Hx, Hy. cbn [mbind option_bind].
          destruct (Forall_lookup_1 _ _ _ _ Hch' Hx) as [Wx Rx]. destruct (Forall_lookup_1 _ _ _ _ Hch' Hy) as [Wy _].
          destruct (crossover_ok ip op (lk_coins lk i) G (i_genome x) (i_genome y) HG Wx Wy) as (child & ch0 & -> & Wc & _).
          cbn [mbind option_bind]. unfold push. rewrite decide_True by lia. eexists. split; [done|]. split.
          -- apply Forall_app. split; [done|]. apply list.Forall_singleton. by split.
          -- rewrite app_length. cbn. lia.
        * exists g. split; [done|]. split; [done|]. lia.
      + exists gg'. split; [done|]. split; [done|]. lia.
    - exists gg. split; [done|]. split; [done|]. lia.
  Qed.

  Lemma reproduce_ok lk G l :
    possible_gen lk -> consistent ip op G -> Forall (fine_specie ip op G) l -> (forall s, s ∈ l -> s_members s <> []) ->
    length l <= 2 * max_pop c -> well_placed (threshold c) l ->
    exists l' G' gg', reproduce c lk G l = Some (l', G', gg') /\ extends G G' /\ consistent ip op G' /\
      Forall (fine_specie ip op G') l' /\ well_placed (threshold c) l' /\ members l' = [] /\ length l' = length l /\
      Forall (fine ip op G') gg' /\ length l * children c <= length gg' <= length l * (50 * children c + 2).
  Proof using Hv.
    intros Hlk HG Hl Hne Hlen Hp. pose proof capacity_large as [C1 C2]. assert (C3 : 1 <= children c) by apply Hv.
    assert (C4 : length l * (50 * children c + 2) + 1 <= capacity c) by (destruct Hv; unfold capacity; nia). unfold reproduce. cbv zeta.
    match goal with |- context [each (fun st s => breed_species c lk ?n (?F s) st s) l ?st] =>
      destruct (breed_all_ok lk n F G l st) as (st' & l1 & -> & Es & Li & He & HG' & Hgg & Hch & L1 & L2) end; cbn [b_globals b_gg b_champions b_a b_species length]; try done.
    { apply extends_refl. } { apply mean_fitness_nonneg. } { intros s Hs. by apply norm_nonneg. } { nia. } { lia. }
    cbn [mbind option_bind b_gg b_champions b_species length] in *. cbn in Es.
    match goal with |- context [if keep_parents c then ?A else ?B] =>
      assert (Hk : exists gg1, (if keep_parents c then A else B) = Some gg1 /\ Forall (fine ip op (b_globals st')) gg1 /\
                 length (b_gg st') <= length gg1 <= length (b_gg st') + length l) end.
    { destruct (keep_parents c).
      - destruct (keep_ok (b_globals st') (b_champions st') (b_gg st') Hch Hgg) as (gg1 & -> & K1 & K2); [nia|].
        exists gg1. split; [done|]. split; [done|]. lia.
      - eexists. split; [done|]. split; [done|]. lia. }
    destruct Hk as (gg1 & -> & K1 & K2). cbn [mbind option_bind].
    destruct (cross_ok lk (b_globals st') (b_champions st') gg1 Hlk HG' Hch K1) as (gg2 & -> & M1 & M2); [nia|]. cbn [mbind option_bind].
    eexists _, _, _. split; [done|]. split; [done|]. split; [done|]. rewrite Es.
    assert (Hl1 : Forall (fine_specie ip op (b_globals st')) l1).
    { apply list.Forall_forall. intros s' Hs'. apply elem_of_list_lookup in Hs' as [i Hi].
      destruct (Forall2_lookup_r _ _ _ _ _ Li Hi) as (s & Hs & Q1 & Q2 & _).
      pose proof (Forall_lookup_1 _ _ _ _ (fine_specie_extend _ _ _ _ _ He Hl) Hs) as [W1 W2].
      split; [by rewrite Q1|by rewrite Q2]. }
    split.
    { unfold clear_species, update_best. do 2 apply list.Forall_fmap. eapply list.Forall_impl; [exact Hl1|].
      intros s [W1 W2]. split; [done|]. by apply Forall_nil. }
    split.
    { unfold clear_species, update_best. apply well_placed_map; [done| |].
      { intros s x Hx. cbn in Hx. by apply elem_of_nil in Hx. }
      apply well_placed_map; [done|done|]. eapply well_placed_rel; [|exact Hp].
      eapply Forall2_impl; [exact Li|]. intros s s' (Q1 & Q2 & _). split; [done|]. by rewrite Q2. }
    split.
    { unfold clear_species, members. rewrite <- list_fmap_compose. induction (update_best l1); done. }
    split.
    { unfold clear_species, update_best. rewrite !fmap_length. by rewrite (Forall2_length _ _ _ Li). }
    split; [done|]. nia.
  Qed.

  Lemma finish_ok G gg best :
    Forall (fine ip op G) gg -> length gg < capacity c -> fine ip op G best ->
    exists gg' x, finish c gg best = Some (gg' ++ [x]) /\ length gg' = length gg /\ Forall (fine ip op G) (gg' ++ [x]) /\
      Forall (fun y => i_fitness y = 0%R /\ increasing (node_numbers (i_genome y))) (gg' ++ [x]) /\
      same_genome (i_genome best) (i_genome x).
  Proof.
    intros Hgg Hcap Hb. unfold finish.
    destruct (copy_individual_ok ip op G best Hb) as (y & -> & Hy & (_ & _ & Sy)). cbn [mbind option_bind].
    unfold push. rewrite decide_True by done. cbn [mbind option_bind].
    assert (Hadj : forall z, fine ip op G z ->
       exists z', (g ← adjust_genome (i_genome z); Some (mkInd g 0 (i_rip z))) = Some z' /\ fine ip op G z' /\
         (i_fitness z' = 0%R /\ increasing (node_numbers (i_genome z'))) /\ same_genome (i_genome z) (i_genome z')).
    { intros z [Wz Rz]. destruct (adjust_ok ip op G _ Wz) as (g' & -> & W' & (T1 & T2 & T3 & _) & _). cbn [mbind option_bind].
      eexists. split; [done|]. split; [by split|]. split; [done|]. split; [by rewrite T1|]. intros. cbn. by rewrite T3. }
    assert (Hall : forall l, Forall (fine ip op G) l ->
       exists l', mapM (fun z => g ← adjust_genome (i_genome z); Some (mkInd g 0 (i_rip z))) l = Some l' /\ length l' = length l /\
         Forall (fine ip op G) l' /\ Forall (fun y => i_fitness y = 0%R /\ increasing (node_numbers (i_genome y))) l').
    { induction l as [|z l IH]; intros Hl.
      - exists []. split; [done|]. split; [done|]. split; by apply Forall_nil.
      - apply list.Forall_cons in Hl as [Hz Hl]. destruct (IH Hl) as (l' & E & L & A & B). destruct (Hadj z Hz) as (z' & Ez & A' & B' & _).
        exists (z' :: l'). split; [|split; [cbn; lia|split; by constructor]].
        cbn [mapM]. rewrite Ez. cbn [mbind option_bind]. rewrite E. done. }
    destruct (Hall gg Hgg) as (gg' & E & L & A & B). destruct (Hadj y Hy) as (x & Ex & A' & B' & Sx).
    exists gg', x. split; [|split; [done|split; [|split]]].
    - clear -E Ex. revert gg' E. induction gg as [|z gg IH]; intros gg' E.
      + cbn in E. apply (inj Some) in E. subst gg'. cbn [app mapM]. rewrite Ex. done.
      + apply mapM_cons_inv in E as (z' & l' & Ez & El & ->). change ((z :: gg) ++ [y]) with (z :: (gg ++ [y])).
        cbn [mapM]. rewrite Ez. cbn [mbind option_bind]. rewrite (IH _ El). done.
    - apply Forall_app. split; [done|]. by apply list.Forall_singleton.
    - apply Forall_app. split; [done|]. by apply list.Forall_singleton.
    - by eapply same_genome_trans.
  Qed.
End reproduction.
