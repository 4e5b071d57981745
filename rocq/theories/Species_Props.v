(** C58: the distance that decides which NEAT genomes are of one species.  Populations are those of
    [Neat_Spec], with real weights. *)
From Coq Require Import Reals Lra.
From Verif Require Import Base BaseLemmas Shuffle_Model Shuffle_Spec Neat_Model Neat_Spec Neat_Proofs Neat2_Proofs Neat3_Proofs Neat4_Proofs Neat5_Proofs.
From Verif Require Import Neat6_Proofs Neat_Props Species_Model Species_Spec Species_Proofs Species2_Proofs.
Open Scope nat_scope.

(** The distance of two genomes of a reachable population is always computed, without undefined
    behaviour: of the connections that one of the two genomes lacks, those of the genome with the
    larger last number (of the first genome, if the last numbers are equal) are counted and divided
    by the size; 0.4 times the mean weight difference of the common connections is added. *)
Theorem distance_formula input output G (l : list (genome R)) m1 m2 g1 g2 :
  1 <= input -> 1 <= output -> reachable 1%R input output (G, l) -> l !! m1 = Some g1 -> l !! m2 = Some g2 ->
  compute_species_distance g1 g2 (gl_conns G) =
    Some (if decide (last_number g1 < last_number g2) then one_sided_distance g2 g1 else one_sided_distance g1 g2).
Proof.
  intros Hi Ho Hr H1 H2. destruct (reachable_genome _ _ _ _ _ _ _ Hi Ho Hr H1) as (HG & W1 & _).
  destruct (reachable_genome _ _ _ _ _ _ _ Hi Ho Hr H2) as (_ & W2 & _). by apply (distance_ok input output).
Qed.

Theorem distance_is_not_negative input output G (l : list (genome R)) m1 m2 g1 g2 d :
  1 <= input -> 1 <= output -> reachable 1%R input output (G, l) -> l !! m1 = Some g1 -> l !! m2 = Some g2 ->
  compute_species_distance g1 g2 (gl_conns G) = Some d -> (0 <= d)%R.
Proof.
  intros Hi Ho Hr H1 H2. rewrite (distance_formula input output G l m1 m2) by done. intros E. apply (inj Some) in E. subst d.
  apply distance_nonneg'.
Qed.

(** a genome is at distance 0 from itself and from its copies, in both directions *)
Theorem distance_to_a_copy input output G (l : list (genome R)) m g g' :
  1 <= input -> 1 <= output -> reachable 1%R input output (G, l) -> l !! m = Some g -> copy_genome g = Some g' ->
  compute_species_distance g g (gl_conns G) = Some 0%R /\
  compute_species_distance g g' (gl_conns G) = Some 0%R /\ compute_species_distance g' g (gl_conns G) = Some 0%R.
Proof.
  intros Hi Ho Hr H1 Hc. destruct (reachable_genome _ _ _ _ _ _ _ Hi Ho Hr H1) as (HG & W1 & _).
  destruct (copy_ok _ _ _ _ W1) as (g'' & E & W2 & N & Hg). rewrite Hc in E. apply (inj Some) in E. subst g''.
  assert (S : same_genome g g') by (split; [by rewrite N|]; intros; by rewrite Hg).
  rewrite !(distance_ok input output G) by done.
  pose proof (distance_self g) as D. change (Some (distance g g) = Some 0%R /\ Some (distance g g') = Some 0%R /\ Some (distance g' g) = Some 0%R).
  rewrite <- (distance_ext input output G g g g g') by done.
  rewrite <- (distance_ext input output G g g' g g) by done. by rewrite D.
Qed.

(** The distance of the NEAT algorithm counts the connections that either genome lacks
    ([neat_distance]).  The one computed leaves out the disjoint connections of one genome, so it is
    smaller whenever there are any. *)
Theorem distance_underestimates input output G (l : list (genome R)) m1 m2 g1 g2 :
  1 <= input -> 1 <= output -> reachable 1%R input output (G, l) -> l !! m1 = Some g1 -> l !! m2 = Some g2 ->
  compute_species_distance g1 g2 (gl_conns G) =
    Some (neat_distance g1 g2 - INR (length (ignored g1 g2)) / INR (divisor g1 g2))%R.
Proof.
  intros Hi Ho Hr H1 H2. rewrite (distance_formula input output G l m1 m2) by done.
  destruct (reachable_genome _ _ _ _ _ _ _ Hi Ho Hr H1) as (HG & W1 & _).
  destruct (reachable_genome _ _ _ _ _ _ _ Hi Ho Hr H2) as (_ & W2 & _). f_equal.
  assert (Hex : forall g h, last_number g <= last_number h -> excess g h = []).
  { intros g h Hle. apply filter_none. intros n Hn [_ Hlt]. pose proof (foldr_max_ge _ _ Hn). unfold last_number in *. lia. }
  pose proof (divisor_pos g1 g2) as Hd. unfold one_sided_distance, neat_distance, ignored.
  case_decide as E.
  - rewrite (Hex g1 g2) by lia. rewrite (divisor_sym input output G) by done. rewrite (weight_difference_sym input output G g2 g1) by done.
    cbn [length INR]. field. lra.
  - rewrite (Hex g2 g1) by lia. cbn [length INR]. field. lra.
Qed.

(** symmetric when the last numbers differ; what is missing is refuted below *)
Theorem distance_symmetric_partial input output G (l : list (genome R)) m1 m2 g1 g2 :
  1 <= input -> 1 <= output -> reachable 1%R input output (G, l) -> l !! m1 = Some g1 -> l !! m2 = Some g2 ->
  last_number g1 <> last_number g2 ->
  compute_species_distance g1 g2 (gl_conns G) = compute_species_distance g2 g1 (gl_conns G).
Proof.
  intros Hi Ho Hr H1 H2 Hne. rewrite (distance_formula input output G l m1 m2), (distance_formula input output G l m2 m1) by done.
  destruct (decide (last_number g1 < last_number g2)); [rewrite decide_False by lia|rewrite decide_True by lia]; done.
Qed.

(** Two genomes with the same last number: whatever other connections the second has, the distance
    from the first is 0 as soon as the second has the connections of the first with the same
    weights. *)
Theorem older_connections_are_ignored input output G (l : list (genome R)) m1 m2 g1 g2 :
  1 <= input -> 1 <= output -> reachable 1%R input output (G, l) -> l !! m1 = Some g1 -> l !! m2 = Some g2 ->
  last_number g1 = last_number g2 ->
  (forall num a b e w, has_gene g1 num a b e w -> has_gene g2 num a b e w) ->
  compute_species_distance g1 g2 (gl_conns G) = Some 0%R.
Proof.
  intros Hi Ho Hr H1 H2 El Hs. rewrite (distance_formula input output G l m1 m2) by done.
  destruct (reachable_genome _ _ _ _ _ _ _ Hi Ho Hr H1) as (HG & W1 & _).
  destruct (reachable_genome _ _ _ _ _ _ _ Hi Ho Hr H2) as (_ & W2 & _). f_equal.
  rewrite decide_False by lia. apply one_sided_subset.
  - intros n Hn. apply (gene_number _ _ _ _ _ W1) in Hn as (a & b & e & w & Hg).
    apply (gene_number _ _ _ _ _ W2). exists a, b, e, w. by apply Hs.
  - intros n Hn. apply (gene_number _ _ _ _ _ W1) in Hn as (a & b & e & w & Hg).
    rewrite (gene_expressed _ _ _ _ _ _ _ _ _ W1 Hg). apply Hs in Hg. by rewrite (gene_expressed _ _ _ _ _ _ _ _ _ W2 Hg).
Qed.

(** ** A concrete population *)

(** Two inputs and one output.  The first genome has the connections 1 (1 -> 3) and 2 (2 -> 3), the
    second one has connection 2 only, with the same weight. *)
Definition pair (w : R) : list (call R) :=
  [New; New; Connect 0 9 first_ first_ w; Connect 1 9 last_ last_ w; Connect 0 9 last_ last_ w].

Lemma pair_reachable w :
  exists G g1 g2, reachable 1%R 2 1 (G, [g1; g2]) /\ gl_conns G = 2 /\
    numbers g1 = [1; 2] /\ numbers g2 = [2] /\ g_input g1 = 2 /\ g_output g1 = 1 /\
    (forall n, n = 2 -> expressed (g_conns g1) n = w /\ expressed (g_conns g2) n = w).
Proof.
  assert (F : Forall possible (pair w)).
  { assert (rand_ok 9 first_) by (intros k; unfold first_; lia). assert (rand_ok 9 last_) by (intros k; unfold last_; lia).
    unfold pair. repeat (apply list.Forall_cons; split; [cbn; done|]). by apply Forall_nil. }
  eexists _, _, _. split; [exists (pair w); split; [done|]; vm_compute; reflexivity|].
  split_and!; try done. intros n ->. done.
Qed.

Theorem distance_symmetric_refuted :
  exists G g1 g2, reachable 1%R 2 1 (G, [g1; g2]) /\
    compute_species_distance g1 g2 (gl_conns G) = Some 1%R /\
    compute_species_distance g2 g1 (gl_conns G) = Some 0%R.
Proof.
  destruct (pair_reachable 5%R) as (G & g1 & g2 & Hr & HG & N1 & N2 & I & O & E). destruct (E 2 eq_refl) as [E1 E2].
  exists G, g1, g2. split; [done|].
  rewrite (distance_formula 2 1 G [g1; g2] 0 1), (distance_formula 2 1 G [g1; g2] 1 0) by (done || lia).
  assert (L1 : last_number g1 = 2) by (unfold last_number; by rewrite N1).
  assert (L2 : last_number g2 = 2) by (unfold last_number; by rewrite N2).
  rewrite L1, L2, !decide_False by lia.
  assert (C12 : common g1 g2 = [2]) by (unfold common; rewrite N1, N2; vm_compute; done).
  assert (C21 : common g2 g1 = [2]) by (unfold common; rewrite N1, N2; vm_compute; done).
  assert (X12 : excess g1 g2 = []) by (unfold excess; rewrite N1, N2, L2; vm_compute; done).
  assert (X21 : excess g2 g1 = []) by (unfold excess; rewrite N1, N2, L1; vm_compute; done).
  assert (D12 : disjoint g1 g2 = [1]) by (unfold disjoint; rewrite N1, N2, L2; vm_compute; done).
  assert (D21 : disjoint g2 g1 = []) by (unfold disjoint; rewrite N1, N2, L1; vm_compute; done).
  assert (V12 : divisor g1 g2 = 1) by (unfold divisor; rewrite N1, N2, I, O; vm_compute; done).
  assert (W12 : weight_difference g1 g2 = 0%R).
  { unfold weight_difference. rewrite C12. apply mean_zero. constructor; [|constructor]. rewrite E1, E2.
    rewrite Rminus_diag_eq by done. apply Rabs_R0. }
  assert (W21 : weight_difference g2 g1 = 0%R).
  { unfold weight_difference. rewrite C21. apply mean_zero. constructor; [|constructor]. rewrite E1, E2.
    rewrite Rminus_diag_eq by done. apply Rabs_R0. }
  unfold one_sided_distance. rewrite X12, X21, D12, D21, V12, W12, W21. cbn [length INR].
  split; f_equal; unfold Rdiv; [|ring]. rewrite Rinv_1. ring.
Qed.

(** ... so the distance computed is not that of the NEAT algorithm, which is symmetric. *)
Theorem distance_is_the_neat_distance_refuted :
  exists G g1 g2, reachable 1%R 2 1 (G, [g1; g2]) /\
    compute_species_distance g2 g1 (gl_conns G) = Some 0%R /\ neat_distance g2 g1 = 1%R.
Proof.
  destruct (pair_reachable 5%R) as (G & g1 & g2 & Hr & HG & N1 & N2 & I & O & E). destruct (E 2 eq_refl) as [E1 E2].
  exists G, g1, g2. split; [done|].
  pose proof (distance_underestimates 2 1 G [g1; g2] 1 0 g2 g1 ltac:(lia) ltac:(lia) Hr eq_refl eq_refl) as U.
  assert (L1 : last_number g1 = 2) by (unfold last_number; by rewrite N1).
  assert (L2 : last_number g2 = 2) by (unfold last_number; by rewrite N2).
  assert (V : divisor g2 g1 = 1).
  { destruct (reachable_genome 1%R 2 1 G [g1; g2] 0 g1 ltac:(lia) ltac:(lia) Hr eq_refl) as (_ & W1 & _).
    destruct (reachable_genome 1%R 2 1 G [g1; g2] 1 g2 ltac:(lia) ltac:(lia) Hr eq_refl) as (_ & W2 & _).
    rewrite (divisor_sym 2 1 G) by done. unfold divisor. rewrite N1, N2, I, O. vm_compute; done. }
  assert (D : ignored g2 g1 = [1]).
  { unfold ignored. rewrite L1, L2, decide_False by lia. unfold disjoint. rewrite N1, N2, L2. vm_compute; done. }
  assert (Z : compute_species_distance g2 g1 (gl_conns G) = Some 0%R).
  { rewrite (distance_formula 2 1 G [g1; g2] 1 0) by (done || lia). rewrite L1, L2, decide_False by lia. f_equal.
    apply one_sided_subset; rewrite N2.
    - intros n Hn. apply elem_of_list_singleton in Hn as ->. rewrite N1. set_solver.
    - intros n Hn. apply elem_of_list_singleton in Hn as ->. by rewrite E1, E2. }
  split; [done|]. rewrite Z, D, V in U. apply (inj Some) in U. cbn [length INR] in U. lra.
Qed.

Print Assumptions distance_formula.
Print Assumptions distance_is_not_negative.
Print Assumptions distance_to_a_copy.
Print Assumptions distance_underestimates.
Print Assumptions distance_symmetric_partial.
Print Assumptions older_connections_are_ignored.
Print Assumptions distance_symmetric_refuted.
Print Assumptions distance_is_the_neat_distance_refuted.
