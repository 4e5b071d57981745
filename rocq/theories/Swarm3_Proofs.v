(** What the calls leave alone. *)
From Coq Require Import Reals Lra.
From Verif Require Import BaseLemmas Aco_Spec Aco_Proofs Aco2_Proofs Aco3_Proofs Aco4_Proofs Aco5_Proofs Aco6_Proofs Aco7_Proofs Aco8_Proofs Pher_Spec Pher_Proofs Pher2_Proofs Swarm_Spec Swarm_Proofs Swarm2_Proofs.
Ltac bnd H x E := match type of H with mbind _ ?o = _ => destruct o as [x|] eqn:E; [|done] end; cbn [mbind option_bind] in H.
Open Scope nat_scope.
Local Notation O := real_num.

Section rel.
Context (Rn : node R -> node R -> Prop) (Hr : forall n, Rn n n) (Ht : forall a b c, Rn a b -> Rn b c -> Rn a c).
Definition rel (g g' : graph R) : Prop := Forall2 Rn (g_nodes g) (g_nodes g').
Lemma rel_refl g : rel g g. Proof using Hr. unfold rel. apply Forall2_same_length_lookup. split; [done|]. intros i x y A B. replace y with x by congruence. done. Qed.
Lemma rel_trans g1 g2 g3 : rel g1 g2 -> rel g2 g3 -> rel g1 g3.
Proof using Ht.
  unfold rel. intros A B. apply Forall2_same_length_lookup. split; [rewrite (Forall2_length _ _ _ A); by apply Forall2_length in B|]. intros i x z Hx Hz. destruct (Forall2_lookup_l _ _ _ _ _ A Hx) as (y & Hy & Q).
  destruct (Forall2_lookup_l _ _ _ _ _ B Hy) as (z' & Hz' & Q'). replace z with z' by congruence. by eapply Ht.
Qed.
Lemma on_node_rel f i g g' : (forall n, g_nodes g !! i = Some n -> Rn n (f n)) -> on_node f i g = Some g' -> rel g g'.
Proof using Hr Ht.
  intros Hf E. unfold on_node in E. bnd E n En. bnd E ns Ew. injection E as <-. apply wr_inv in Ew as [Hl ->]. unfold rel. cbn. apply Forall2_same_length_lookup. split; [by rewrite insert_length|]. intros j x y Hx Hy.
  destruct (decide (i = j)) as [->|Hne]; [|rewrite list_lookup_insert_ne in Hy by done; replace y with x by congruence; done]. rewrite list_lookup_insert in Hy by (by eapply lookup_lt_Some). injection Hy as <-. unfold rd in En. replace x with n by congruence. by apply Hf.
Qed.
Lemma on_edge_rel f i g g' : on_edge f i g = Some g' -> rel g g'.
Proof using Hr. intros E. unfold on_edge in E. bnd E n En. bnd E ns Ew. injection E as <-. exact (rel_refl g). Qed.
Lemma each_node_rel f l g g' : (forall n, Rn n (f n)) -> each (on_node f) l g = Some g' -> rel g g'.
Proof using Hr Ht. intros Hf. apply each_rel; [apply rel_refl|apply rel_trans|]. intros x g1 g2. apply on_node_rel. auto. Qed.
Lemma each_edge_rel f l g g' : each (on_edge f) l g = Some g' -> rel g g'.
Proof using Hr Ht. apply each_rel; [apply rel_refl|apply rel_trans|]. intros x g1 g2. apply on_edge_rel. Qed.
Lemma along_rel f h t : (forall k n, Rn n (h k n)) -> forall k x g g', along f h k x t g = Some g' -> rel g g'.
Proof using Hr Ht.
  intros Hh. induction t as [|i t IH]; intros k x g g' E; cbn [along] in E; [injection E as <-; apply rel_refl|]. bnd E n En. destruct (decide _); [injection E as <-; apply rel_refl|]. bnd E e Ee. bnd E y Ey. bnd E g1 E1'. bnd E g2 E2.
  eapply rel_trans; [by eapply on_edge_rel|]. eapply rel_trans; [eapply on_node_rel; [|exact E2]; auto|by eapply IH].
Qed.
Context (c : call R) (Hph : forall x n, Rn n (set_pher x n)) (Hfl : forall b n, Rn n (set_flag b n))
  (Hi : c = Fitness \/ c = FitnessNodes -> forall x n, Rn n (set_input x n))
  (Hp : c = Personal -> forall n, (o_personal n < o_input n)%R -> Rn n (set_personal (o_input n) (weight_of O n) n))
  (Hg : c = Global \/ c = GlobalNodes -> forall x p n, Rn n (set_global x p n))
  (Hw : forall w r1 r2, c = Swarm_step w r1 r2 -> forall x v n, Rn n (set_weight x (set_v v n)))
  (Hm : forall f, c = Move f -> forall x n, Rn n (set_weight x n)).
Lemma on_path_nodes_rel h t g g' : (forall k n, Rn n (h k n)) -> on_path_nodes h t g = Some g' -> rel g g'.
Proof using Hr Ht. intros Hh. by apply along_rel. Qed.
Lemma on_path_edges_rel f t g g' : on_path_edges f t g = Some g' -> rel g g'.
Proof using Hr Ht. by apply along_rel. Qed.
Lemma fade_node_rel f n : Rn n (fade_node f n).
Proof using Hr Ht Hph Hfl. unfold fade_node. destruct (o_flag n); auto. Qed.
Lemma best_global_rel rows (s s' : aco R) : (forall x p n, Rn n (set_global x p n)) -> best_global_by O rows s = Some s' -> rel (s_graph s) (s_graph s').
Proof using Hr Ht.
  intros Hg' E. unfold best_global_by in E. bnd E g1 E1'. injection E as <-. cbn. apply for_loop_rel with (R := rel) in E1'; [done|apply rel_refl|apply rel_trans|]. intros x g g' E. cbn beta in E.
  bnd E r E2. bnd E w E3. bnd E nodes E4. apply for_loop_rel with (R := rel) in E; [done|apply rel_refl|apply rel_trans|]. intros y h h' Ey. unfold share_row in Ey. bnd Ey row E5. bnd Ey b E6. eapply each_node_rel; [|exact Ey]. auto.
Qed.
Lemma pso_step_rel w r1 r2 x g g' : (forall x v n, Rn n (set_weight x (set_v v n))) -> pso_step O w r1 r2 x g = Some g' -> rel g g'.
Proof using Hr Ht.
  intros Hw' Ez. unfold pso_step in Ez. bnd Ez n F1. bnd Ez p F2. bnd Ez m F3. destruct (differ _ _ _); [|injection Ez as <-; apply rel_refl]. eapply on_node_rel; [|exact Ez]. intros. apply Hw'.
Qed.
Lemma run_call_rel k ts (s s' : aco R) : inv O k ts s -> clear_edges (s_graph s) -> run_call O c s = Some s' -> rel (s_graph s) (s_graph s').
Proof using Hr Ht Hph Hfl Hi Hp Hg Hw Hm.
  intros H Hc E. pose proof rel_refl as RR. destruct c; cbn [run_call] in E.
  1-4: destruct (build_path_by_inv O k ts s _ _ s' H E) as (t & Hf & _ & ->); exact (RR (s_graph s)).
  - unfold set_pheromone_to_index in E. destruct (decide _); [by injection E as <-|]. bnd E l El. injection E as <-. exact (RR (s_graph s)).
  - unfold update_best_trail in E. apply with_best_loop in E as (b & x & ->). exact (RR (s_graph s)).
  - injection E as <-. exact (RR (s_graph s)).
  - injection E as <-. unfold update_taus. destruct (_ || _); exact (RR (s_graph s)).
  - destruct (best_ant O s) as [b|] eqn:Eb; [|unfold update_pheromones in E; by rewrite Eb in E]. rewrite (update_pheromones_ok O k ts s b H Hc Eb) in E. injection E as <-. exact (RR (s_graph s)).
  - unfold update_pheromones_nodes in E. bnd E b Eb. bnd E g1 Q1. bnd E g2 Q2. injection E as <-. cbn. eapply rel_trans; [eapply on_path_nodes_rel; [|exact Q1]|eapply each_node_rel; [|exact Q2]; apply fade_node_rel].
    intros j n. eauto.
  - unfold update_pheromones_subnodes in E. destruct (decide _); [done|]. bnd E b Eb. bnd E g1 Q1. bnd E g2 Q2. injection E as <-. cbn. eapply rel_trans; [eapply on_path_nodes_rel; [|exact Q1]|].
    + intros j ?. unfold sub_deposit. repeat case_match; eauto.
    + apply for_loop_rel with (R := rel) in Q2; [done|apply RR|apply rel_trans|]. intros x g g' E. cbn beta in E. bnd E y Ey. eapply on_node_rel; [|exact E]. intros. apply fade_node_rel.
  - rewrite (update_pheromones_free_ok O k ts) in E by done. injection E as <-. exact (RR (s_graph s)).
  - destruct (decide (s_every s = 0)) as [Z|Z]; [unfold update_pheromones_best, due in E; by rewrite decide_True in E by done|].
    rewrite (update_pheromones_best_ok O k ts) in E by done. injection E as <-. destruct (_ =? 0); exact (RR (s_graph s)).
  - unfold update_pheromones_best_nodes in E. bnd E b Eb. destruct b; [|injection E as <-; exact (RR (s_graph s))]. bnd E g1 Q1. bnd E g2 Q2. injection E as <-. cbn. eapply rel_trans; [eapply on_path_nodes_rel; [|exact Q1]|eapply each_node_rel; [|exact Q2]; apply fade_node_rel].
    intros j n. eauto.
  - unfold recompute_pheromones in E. bnd E g1 Q1. injection E as <-. cbn. by eapply each_edge_rel.
  - unfold recompute_pheromones_nodes in E. bnd E g1 Q1. injection E as <-. cbn. eapply each_node_rel; [|exact Q1]. intros ?. apply Hph.
  - destruct (recompute_if_stagnant O threshold delta s) as [[s1 x]|] eqn:Q1; [|done]. cbn in E. injection E as <-. unfold recompute_if_stagnant in Q1.
    bnd Q1 y Ey. bnd Q1 s2 Q2. injection Q1 as <- _. destruct (n_lt O y threshold); [|injection Q2 as <-; exact (RR (s_graph s))]. unfold recompute_pheromones in Q2. bnd Q2 g1 Q3. injection Q2 as <-. cbn. by eapply each_edge_rel.
  - destruct (recompute_if_stagnant_nodes O threshold delta s) as [[s1 x]|] eqn:Q1; [|done]. cbn in E. injection E as <-. unfold recompute_if_stagnant_nodes in Q1.
    bnd Q1 y Ey. bnd Q1 s2 Q2. injection Q1 as <- _. destruct (n_lt O y threshold); [|injection Q2 as <-; exact (RR (s_graph s))]. unfold recompute_pheromones_nodes in Q2. bnd Q2 g1 Q3. injection Q2 as <-. cbn. eapply each_node_rel; [|exact Q3]. intros ?. apply Hph.
  - destruct (fitness_ok k ts s H) as (g & Ef & _ & En). rewrite Ef in E. injection E as <-. unfold rel. cbn. rewrite En. apply Forall2_same_length_lookup. split; [by rewrite imap_length|]. intros i x y Hx Hy. rewrite list_lookup_imap, Hx in Hy. cbn in Hy. injection Hy as <-.
    unfold fit. destruct (is_weight _); [|done]. apply Hi. by left.
  - unfold pso_function_nodes in E. bnd E g1 Q1. injection E as <-. cbn. eapply each_node_rel; [|exact Q1]. intros n. cbn beta. destruct (is_weight _); [|done]. apply Hi. by right.
  - unfold best_personal in E. bnd E g1 Q1. injection E as <-. cbn. eapply each_node_rel; [|exact Q1]. intros n. cbn beta. rewrite n_ltb. destruct (is_weight _); [|done]. cbn [andb]. case_bool_decide; [|done]. by apply Hp.
  - eapply best_global_rel; [|exact E]. apply Hg. by left.
  - eapply best_global_rel; [|exact E]. apply Hg. by right.
  - unfold update_pso in E. bnd E g0 Q0. unfold reset_flags in E. bnd E g1 Q1. bnd E g2 Q2. injection E as <-. cbn in *. eapply rel_trans; [|eapply rel_trans; [eapply each_node_rel; [|exact Q1]; auto|by eapply each_edge_rel]].
    apply for_loop_rel with (R := rel) in Q0; [done|apply RR|apply rel_trans|]. intros x g g' E. cbn beta in E. bnd E r Q3. bnd E w_ Q4. bnd E nodes Q5. apply for_loop_rel with (R := rel) in E; [done|apply RR|apply rel_trans|].
    intros y h h' Ey. cbn beta in Ey. bnd Ey row Q6. eapply each_rel with (R := rel) in Ey; [done|apply RR|apply rel_trans|]. intros z u u' Ez. eapply pso_step_rel; [|exact Ez]. by eapply Hw.
  - unfold reset_flags in E. bnd E g1 Q1. bnd E g2 Q2. injection E as <-. cbn in *. eapply rel_trans; [eapply each_node_rel; [|exact Q1]; auto|by eapply each_edge_rel].
  - injection E as <-. unfold rel. cbn. apply Forall2_same_length_lookup. split; [by rewrite imap_length|]. intros i x y Hx Hy. rewrite list_lookup_imap, Hx in Hy. cbn in Hy. injection Hy as <-. by eapply Hm.
Qed.
End rel.
