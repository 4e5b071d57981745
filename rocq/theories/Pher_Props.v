(** C61: the pheromones of the ant-colony search follow their rules, and the search goes on. *)
From Coq Require Import Reals Lra.
From Verif Require Import BaseLemmas Aco_Spec Aco_Proofs Aco2_Proofs Aco3_Proofs Aco4_Proofs Aco5_Proofs Aco6_Proofs Aco8_Proofs Aco9_Proofs Aco_Props Pher_Spec Pher_Proofs Pher2_Proofs Pher3_Proofs Pher4_Proofs.
Open Scope R_scope.

Lemma first_max_leads (s : aco R) a t x : s_trails s !! a = Some t -> first_max (s_phers s) a x -> best_ant real_num s = Some (t, x).
Proof.
  intros Et [Ex Hm]. apply (leads_best real_num s a). split; [done|]. split; [done|]. apply choose_best_R. exists x. split; [done|]. split; [intros j y E; apply (Hm j y E)|].
  intros j y Hj E. apply (Hm j y E). done.
Qed.
Lemma set_edge_pher f (s : aco R) e old : edge_pher s e = Some old -> edge_pher (set_edge_phers f s) e = Some (f e old).
Proof. unfold edge_pher. cbn. rewrite list_lookup_imap. destruct (_ !! e); [|done]. cbn. by intros [= <-]. Qed.
Lemma set_node_pher f (s : aco R) u old : node_pher s u = Some old -> node_pher (set_node_phers f s) u = Some (f u old).
Proof. unfold node_pher. cbn. rewrite list_lookup_imap. destruct (_ !! u); [|done]. cbn. by intros [= <-]. Qed.
Lemma foldl_add (l : list R) : forall x, foldl (n_add real_num) x l = x + sum l.
Proof. unfold sum. induction l as [|y l IH]; intros x; cbn [foldl foldr]; [lra|]. rewrite IH. cbn. lra. Qed.

(** update_pheromones: every pheromone fades by the factor p; the edges on the trail of the leading ant (the first with the largest credit) gain
    that credit; all stay between the two bounds.  Nothing else changes but the count of the iterations *)
Theorem reward_rule k s a t x : setup_ok real_num k -> 0 <= k_tau k -> reached real_num k s -> s_trails s !! a = Some t -> first_max (s_phers s) a x ->
  exists s', run_call real_num Reward s = Some s' /\ s_iter s' = S (s_iter s) /\ g_nodes (s_graph s') = g_nodes (s_graph s) /\
    (forall e, edge_pher s e = None -> edge_pher s' e = None) /\
    forall e old, edge_pher s e = Some old -> edge_pher s' e = Some (clamp (s_min s) (s_max s) (old * k_p k + if edge_on s t e then x else 0)).
Proof.
  intros Hk Ht Hr Et Hx. destruct (reached_clear real_num k s Hk Hr) as (ts & H & Hc). pose proof (reached_order k s Hk Ht Hr) as Ho. cbn [run_call].
  rewrite (update_pheromones_ok real_num k ts s (t, x) H Hc) by (by eapply first_max_leads). eexists. split; [done|]. cbn [fst snd]. split; [done|]. split; [done|]. split.
  { intros e. unfold edge_pher. cbn. rewrite list_lookup_imap. by destruct (_ !! e). }
  intros e old Ee. unfold reward_of. change (edge_pher (with_iter ?z ?i) e) with (edge_pher z e). rewrite (set_edge_pher _ _ _ _ Ee). f_equal. unfold clamp. rewrite <- (i_p _ _ _ _ H).
  destruct (edge_on s t e); [by apply bound_clamp|]. rewrite fade_clamp by done. do 2 f_equal. lra.
Qed.
(** update_pheromones_according_to_nodes does the same to the nodes, if none of them is marked *)
Theorem reward_nodes_rule k s a t x : setup_ok real_num k -> 0 <= k_tau k -> reached real_num k s -> unmarked s -> s_trails s !! a = Some t -> first_max (s_phers s) a x ->
  exists s', run_call real_num RewardNodes s = Some s' /\ s_iter s' = S (s_iter s) /\ g_edges (s_graph s') = g_edges (s_graph s) /\ unmarked s' /\
    forall u old, node_pher s u = Some old -> node_pher s' u = Some (clamp (s_min s) (s_max s) (old * k_p k + if node_on s t u then x else 0)).
Proof.
  intros Hk Ht Hr Hu Et Hx. destruct (reached_clear real_num k s Hk Hr) as (ts & H & Hc). pose proof (reached_order k s Hk Ht Hr) as Ho. cbn [run_call].
  rewrite (update_pheromones_nodes_ok real_num k ts s (t, x) H Hu) by (by eapply first_max_leads). eexists. split; [done|]. cbn [fst snd]. split; [done|]. split; [done|]. split.
  { unfold unmarked. cbn. by eapply Forall_imap'. }
  intros e old Ee. unfold reward_nodes_of. change (node_pher (with_iter ?z ?i) e) with (node_pher z e). rewrite (set_node_pher _ _ _ _ Ee). f_equal. unfold clamp. rewrite <- (i_p _ _ _ _ H).
  destruct (node_on s t e); [by apply bound_clamp|]. rewrite fade_clamp by done. do 2 f_equal. lra.
Qed.
(** update_pheromones_no_min_max: every edge fades once and gains the credit of each ant that has it on its trail; no bounds *)
Theorem reward_all_rule k s : setup_ok real_num k -> reached real_num k s ->
  exists s', run_call real_num RewardAll s = Some s' /\ s_iter s' = S (s_iter s) /\ g_nodes (s_graph s') = g_nodes (s_graph s) /\
    forall e old, edge_pher s e = Some old -> edge_pher s' e = Some (old * k_p k + sum (deposits s e)).
Proof.
  intros Hk Hr. destruct (reached_clear real_num k s Hk Hr) as (ts & H & Hc). cbn [run_call]. rewrite (update_pheromones_free_ok real_num k ts s H Hc). eexists. split; [done|]. split; [done|]. split; [done|].
  intros e old Ee. unfold reward_all_of. change (edge_pher (with_iter ?z ?i) e) with (edge_pher z e). rewrite (set_edge_pher _ _ _ _ Ee). f_equal. rewrite foldl_add. by rewrite (i_p _ _ _ _ H).
Qed.
(** update_pheromones_best acts once every n_best_path iterations: the edges of the best trail gain its credit, within both bounds;
    the others only fade, and only the lower bound is kept *)
Theorem reward_best_rule k s : setup_ok real_num k -> 0 <= k_tau k -> reached real_num k s -> k_every k <> 0%nat ->
  exists s', run_call real_num RewardBest s = Some s' /\ s_iter s' = s_iter s /\ g_nodes (s_graph s') = g_nodes (s_graph s) /\
    (~ Nat.divide (k_every k) (s_iter s) -> s' = s) /\
    (Nat.divide (k_every k) (s_iter s) -> forall e old, edge_pher s e = Some old -> edge_pher s' e =
      Some (if edge_on s (s_best s) e then clamp (s_min s) (s_max s) (old * k_p k + s_best_pher s) else Rmax (s_min s) (old * k_p k))).
Proof.
  intros Hk Ht Hr He. destruct (reached_clear real_num k s Hk Hr) as (ts & H & Hc). pose proof (reached_order k s Hk Ht Hr) as Ho. cbn [run_call]. pose proof (i_every _ _ _ _ H) as Ee.
  rewrite (update_pheromones_best_ok real_num k ts s H Hc) by (by rewrite Ee). eexists. split; [done|]. rewrite Ee. destruct (s_iter s mod k_every k =? 0)%nat eqn:Em.
  - apply Nat.eqb_eq in Em. apply Nat.mod_divide in Em; [|done]. split; [done|]. split; [done|]. split; [done|]. intros _ e old Eo. unfold reward_best_of. rewrite (set_edge_pher _ _ _ _ Eo). f_equal.
    rewrite <- (i_p _ _ _ _ H). destruct (edge_on s _ e); [by apply bound_clamp|by apply fade_low_max].
  - apply Nat.eqb_neq in Em. rewrite Nat.mod_divide in Em by done. repeat (split; [done|]). done.
Qed.
Theorem reward_best_nodes_rule k s : setup_ok real_num k -> 0 <= k_tau k -> reached real_num k s -> unmarked s -> k_every k <> 0%nat ->
  exists s', run_call real_num RewardBestNodes s = Some s' /\ s_iter s' = s_iter s /\ g_edges (s_graph s') = g_edges (s_graph s) /\
    (~ Nat.divide (k_every k) (s_iter s) -> s' = s) /\
    (Nat.divide (k_every k) (s_iter s) -> forall u old, node_pher s u = Some old -> node_pher s' u =
      Some (if node_on s (s_best s) u then clamp (s_min s) (s_max s) (old * k_p k + s_best_pher s) else Rmax (s_min s) (old * k_p k))).
Proof.
  intros Hk Ht Hr Hu He. destruct (reached_clear real_num k s Hk Hr) as (ts & H & Hc). pose proof (reached_order k s Hk Ht Hr) as Ho. cbn [run_call]. pose proof (i_every _ _ _ _ H) as Ee.
  rewrite (update_pheromones_best_nodes_ok real_num k ts s H Hu) by (by rewrite Ee). eexists. split; [done|]. rewrite Ee. destruct (s_iter s mod k_every k =? 0)%nat eqn:Em.
  - apply Nat.eqb_eq in Em. apply Nat.mod_divide in Em; [|done]. split; [done|]. split; [done|]. split; [done|]. intros _ e old Eo. unfold reward_best_nodes_of. rewrite (set_node_pher _ _ _ _ Eo). f_equal.
    rewrite <- (i_p _ _ _ _ H). destruct (node_on s _ e); [by apply bound_clamp|by apply fade_low_max].
  - apply Nat.eqb_neq in Em. rewrite Nat.mod_divide in Em by done. repeat (split; [done|]). done.
Qed.
(** recompute_pheromones moves every pheromone towards the upper bound by the fraction delta; within the bounds it stays between its old value and
    the upper bound *)
Theorem refresh_rule k s d : setup_ok real_num k -> 0 <= k_tau k -> reached real_num k s ->
  exists s', run_call real_num (Refresh d) s = Some s' /\ g_nodes (s_graph s') = g_nodes (s_graph s) /\
    forall e old, edge_pher s e = Some old -> exists new, edge_pher s' e = Some new /\ new = clamp (s_min s) (s_max s) (old + d * (s_max s - old)) /\
      (0 <= d <= 1 -> s_min s <= old <= s_max s -> old <= new <= s_max s /\ new = old + d * (s_max s - old)).
Proof.
  intros Hk Ht Hr. destruct (reached_clear real_num k s Hk Hr) as (ts & H & Hc). pose proof (reached_order k s Hk Ht Hr) as Ho. cbn [run_call]. rewrite (recompute_ok k ts s d H). eexists. split; [done|].
  split; [done|]. intros e old Ee. eexists. split; [by apply set_edge_pher|]. rewrite bound_clamp by done. split; [done|]. intros Hd Hold.
  assert (0 <= d * (s_max s - old)) by (apply Rmult_le_pos; lra). assert (0 <= (1 - d) * (s_max s - old)) by (apply Rmult_le_pos; lra).
  rewrite Rmin_right by lra. rewrite Rmax_right by lra. lra.
Qed.
(** update_best_trail: the best credit is at least that of every ant, and it belongs to the old best trail or to one of the ants *)
Theorem remember_keeps_the_best k s : setup_ok real_num k -> reached real_num k s -> exists s', run_call real_num Remember s = Some s' /\
  s_best_pher s <= s_best_pher s' /\ Forall (fun x => x <= s_best_pher s') (s_phers s) /\ s_graph s' = s_graph s /\
  ((s_best s' = s_best s /\ s_best_pher s' = s_best_pher s) \/ exists a, s_trails s !! a = Some (s_best s') /\ s_phers s !! a = Some (s_best_pher s') /\ s_best_pher s < s_best_pher s').
Proof.
  intros Hk Hr. destruct (reached_clear real_num k s Hk Hr) as (ts & H & Hc). destruct (remember_ok k ts s H) as (b & x & E & A & B & C). cbn [run_call]. rewrite E. eexists. split; [done|]. cbn. done.
Qed.
(** the best credit is lowered by set_pheromone_best_trail only *)
Theorem best_never_lost k s c s' : setup_ok real_num k -> reached real_num k s -> run_call real_num c s = Some s' -> (forall x, c <> SetBest x) -> s_best_pher s <= s_best_pher s'.
Proof.
  intros Hk Hr E Hc. destruct (reached_clear real_num k s Hk Hr) as (ts & H & _). destruct (run_call_frame real_num k ts c s s' H E) as (_ & _ & _ & _ & A & _).
  assert (c = Remember \/ c <> Remember) as [->|Hn] by (destruct c; (by left) || (by right)).
  - destruct (remember_keeps_the_best k s Hk Hr) as (s2 & E2 & B & _). rewrite E in E2. injection E2 as <-. done.
  - destruct (A Hc Hn) as [-> _]. lra.
Qed.
(** get_stagnation: the distances of the pheromones from the nearer bound, summed, over the square of the number of the nodes.  If all are within
    the bounds it is not negative, and it is 0 exactly when each is at a bound *)
Theorem stagnation_rule k s : setup_ok real_num k -> reached real_num k s ->
  let n := INR (length (g_nodes (s_graph s))) in
  exists x, get_stagnation real_num s = Some x /\ x = sum ((fun e => Rmin (s_max s - g_pher e) (g_pher e - s_min s)) <$> g_edges (s_graph s)) / (n * n) /\
    (Forall (fun e => s_min s <= g_pher e <= s_max s) (g_edges (s_graph s)) -> 0 <= x /\
      (x = 0 <-> Forall (fun e => g_pher e = s_min s \/ g_pher e = s_max s) (g_edges (s_graph s)))).
Proof.
  intros Hk Hr n. destruct (reached_clear real_num k s Hk Hr) as (ts & H & _). destruct (stagnation_total k ts s H) as [(phs & E & P) _]. eexists. split; [exact E|].
  assert (Ln : length (s_nodes s) = length (g_nodes (s_graph s))) by (rewrite (Permutation_length (i_nodes _ _ _ _ H)), seq_length; symmetry; apply (inv_len _ _ _ _ H)).
  rewrite (stagnation_sum s phs _ P), Ln. fold n. rewrite <- list_fmap_compose. split; [done|]. intros Hb. set (f := (fun x => Rmin (s_max s - x) (x - s_min s)) ∘ g_pher).
  assert (Hn : 0 < n). { unfold n. apply lt_0_INR. rewrite (inv_len _ _ _ _ H), bodies_length. lia. } assert (Hnn : 0 < n * n) by (by apply Rmult_lt_0_compat).
  destruct (sum_zero (f <$> g_edges (s_graph s))) as [A B].
  { apply list.Forall_fmap. eapply list.Forall_impl; [exact Hb|]. intros e He. unfold f. cbn. apply Rmin_glb; lra. }
  assert (HZ : sum (f <$> g_edges (s_graph s)) / (n * n) = 0 <-> sum (f <$> g_edges (s_graph s)) = 0).
  { split; intros Z; [|rewrite Z; unfold Rdiv; ring]. apply (Rmult_eq_compat_r (n * n)) in Z. unfold Rdiv in Z. rewrite Rmult_assoc, Rinv_l, Rmult_1_r, Rmult_0_l in Z by lra. done. }
  split; [apply Rmult_le_pos; [done|]; apply Rlt_le, Rinv_0_lt_compat; done|]. rewrite HZ, B, list.Forall_fmap, !list.Forall_forall. rewrite list.Forall_forall in Hb. unfold f. cbn.
  split; intros Q e He; specialize (Q e He); specialize (Hb e He); cbn in *; revert Q; unfold Rmin; destruct (Rle_dec _ _); intros; try lra; try (destruct Q; lra).
Qed.

(** a healthy search stays healthy, and none of the calls that a program may make fails *)
Theorem healthy_search_goes_on k s c : setup_ok real_num k -> 0 < k_p k < 1 -> reached real_num k s -> healthy s -> good k c s ->
  exists s', run_call real_num c s = Some s' /\ reached real_num k s' /\ healthy s'.
Proof. apply good_step. Qed.
(** a search starts healthy *)
Theorem search_starts_healthy junk rnd k : setup_ok real_num k -> 0 < k_tau k -> exists s, init_aco real_num junk rnd k = Some s /\ reached real_num k s /\ healthy s.
Proof.
  intros Hk Ht. destruct (init_aco_builds_the_space real_num junk rnd k Hk) as (s & E & _). exists s. split; [done|]. split; [by exists junk, rnd, [], s|]. by eapply init_healthy.
Qed.
(** any number of rounds runs to its end, whatever the random numbers and the (positive) credits are *)
Theorem rounds_never_stop junk rnd k rounds : setup_ok real_num k -> 0 < k_tau k -> 0 < k_p k < 1 -> k_every k <> 0%nat -> (0 < k_ants k)%nat ->
  Forall (fun r : list (nat -> R) * list R => length r.1 = k_ants k /\ length r.2 = k_ants k /\ Forall (fun f => forall m, f m <= 1) r.1 /\ Forall (fun x => 0 < x) r.2) rounds ->
  exists s0 s, init_aco real_num junk rnd k = Some s0 /\ run real_num (concat ((fun r => round r.1 r.2) <$> rounds)) s0 = Some s /\ healthy s.
Proof.
  intros Hk Ht Hp He Ha HF. destruct (search_starts_healthy junk rnd k Hk Ht) as (s0 & E0 & HR & HS). exists s0. cut (exists s, run real_num (concat ((fun r => round r.1 r.2) <$> rounds)) s0 = Some s /\ healthy s).
  { intros (s & ? & ?). by exists s. }
  clear E0. revert s0 HR HS. induction HF as [|[rs xs] rounds (A & B & C & D) _ IH]; intros s0 HR HS; [by exists s0|]. rewrite fmap_cons. cbn [concat]. rewrite run_app. cbn [fst snd] in *.
  destruct (round_go k rs xs s0 Hk Hp He Ha A B C D HR HS) as (s1 & -> & R1' & S1). cbn [mbind option_bind]. by apply IH.
Qed.

(** what goes wrong *)
(** set_pheromone_to_index accepts the index number_of_ants and writes behind the array; a larger one is ignored *)
Theorem credit_behind_the_last_ant_refuted k s x : setup_ok real_num k -> reached real_num k s ->
  run_call real_num (Credit (k_ants k) x) s = None /\ forall ant, (k_ants k < ant)%nat -> run_call real_num (Credit ant x) s = Some s.
Proof.
  intros Hk Hr. destruct (reached_clear real_num k s Hk Hr) as (ts & H & _). pose proof (i_ants' _ _ _ _ H) as L. cbn [run_call]. unfold set_pheromone_to_index. split.
  - rewrite decide_False by lia. unfold wr. rewrite decide_False by lia. done.
  - intros ant Ha. by rewrite decide_True by lia.
Qed.
(** a period of 0 is divided by *)
Theorem period_zero_refuted k s : setup_ok real_num k -> reached real_num k s -> k_every k = 0%nat -> run_call real_num RewardBest s = None /\ run_call real_num RewardBestNodes s = None.
Proof.
  intros Hk Hr He. destruct (reached_clear real_num k s Hk Hr) as (ts & H & _). pose proof (i_every _ _ _ _ H) as L. cbn [run_call].
  unfold update_pheromones_best, update_pheromones_best_nodes, due. rewrite decide_True by (by rewrite L). done.
Qed.
(** with one candidate for each weight and fixed activations the lower bound that update_taus computes is negative *)
Theorem lower_bound_negative_refuted k s : setup_ok real_num k -> reached real_num k s -> Forall (fun w => w = 1%nat) (k_widths k) -> Forall (fun a => exists x, a = Some x) (k_acts k) ->
  k_p k < 1 -> 0 < k_pdec k < 1 -> 0 < s_best_pher s -> s_max s < s_best_pher s / (1 - k_p k) -> exists s', run_call real_num Taus s = Some s' /\ s_max s' = s_best_pher s / (1 - k_p k) /\ s_min s' < 0.
Proof.
  intros Hk Hr Hw Ha Hp Hd Hb Hm. eexists. split; [done|]. destruct (average_of k s Hk Hr) as (Ea & Ep & Ed).
  pose proof (counts_width1 (k_sizes k) (k_widths k) (k_acts k) Hw Ha (ok_sizes _ k Hk)) as Hc. rewrite Nat.div_small in Ea by lia. cbn [INR] in Ea.
  assert (Emx : 1 / (1 - k_p k) * s_best_pher s = s_best_pher s / (1 - k_p k)) by (field; lra). assert (Hpos : 0 < s_best_pher s / (1 - k_p k)) by (apply Rdiv_lt_0_compat; lra).
  unfold update_taus. rewrite n_ltb. cbn [n_z n_flt n_mul n_div n_sub real_num]. rewrite Ep, Ed, Ea, Emx. rewrite bool_decide_eq_true_2 by done. cbn [orb with_taus s_max s_min]. split; [done|].
  set (mx := s_best_pher s / (1 - k_p k)) in *. assert (Hneg : mx * (1 - k_pdec k) / ((0 - 1) * k_pdec k) < 0).
  { replace (mx * (1 - k_pdec k) / ((0 - 1) * k_pdec k)) with (- (mx * (1 - k_pdec k) / k_pdec k)) by (field; lra).
    assert (0 < mx * (1 - k_pdec k) / k_pdec k); [|lra]. apply Rdiv_lt_0_compat; [|lra]. apply Rmult_lt_0_compat; lra. }
  rewrite n_ltb. rewrite bool_decide_eq_false_2 by lra. done.
Qed.
(** with two candidates for each weight and fixed activations update_taus divides by zero *)
Theorem lower_bound_divides_by_zero_refuted k s : setup_ok real_num k -> reached real_num k s -> Forall (fun w => w = 2%nat) (k_widths k) -> Forall (fun a => exists x, a = Some x) (k_acts k) ->
  s_average s = 1 /\ (s_average s - 1) * s_pdec s = 0.
Proof.
  intros Hk Hr Hw Ha. destruct (average_of k s Hk Hr) as (Ea & Ep & Ed).
  pose proof (counts_width2 (k_sizes k) (k_widths k) (k_acts k) Hw Ha (ok_sizes _ k Hk) (ok_widths _ k Hk) (ok_acts _ k Hk)) as Hc. pose proof (ok_layers _ k Hk) as Hl.
  assert (Eq : (count_edges 1 (k_sizes k) (k_widths k) (k_acts k) / (1 + count_nodes (k_sizes k) (k_widths k) (k_acts k)))%nat = 1%nat).
  { symmetry. apply (Nat.div_unique _ _ 1 (count_edges 1 (k_sizes k) (k_widths k) (k_acts k) - (1 + count_nodes (k_sizes k) (k_widths k) (k_acts k)))); lia. }
  rewrite Eq in Ea. cbn [INR] in Ea. rewrite Ea. split; [done|ring].
Qed.
(** update_pheromones_according_to_subnodes for the first node only leaves the first node of the leading trail marked *)
Theorem subnodes_leave_a_mark_refuted k s a t x : setup_ok real_num k -> reached real_num k s -> unmarked s -> s_trails s !! a = Some t -> t <> [] -> first_max (s_phers s) a x ->
  exists s', run_call real_num (RewardSubnodes 0 1) s = Some s' /\ ~ unmarked s'.
Proof.
  intros Hk Hr Hu Et Hne Hx. destruct (reached_clear real_num k s Hk Hr) as (ts & H & _).
  destruct (subnodes_mark real_num k ts s t x H (reached_head real_num k s Hk Hr) (first_max_leads s a t x Et Hx) Hne) as (s' & v & n & E & En & Ef). exists s'. split; [done|].
  unfold unmarked. rewrite list.Forall_forall. intros Z. specialize (Z n (elem_of_list_lookup_2 _ _ _ En)). congruence.
Qed.

(** the setup of Aco_Props with the best trail rewarded in every iteration *)
Definition demo1 : setup R := Setup [2; 3; 1]%nat [3; 2; 1]%nat [3; 3; 3]%nat [None; Some 1%nat] 4 1 (1 / 2) 1 (1 / 10).
Example demo1_ok : setup_ok real_num demo1.
Proof.
  split; cbn; [lia|repeat constructor; lia|lia|repeat constructor; lia|lia|lia|repeat constructor; lia|].
  rewrite !bool_decide_eq_false_2 by lra. done.
Qed.
(** update_pheromones_best does not keep the upper bound: an ant walks and gets a small credit, its trail is remembered, the pheromones are updated,
    the bounds are recomputed, the best trail is rewarded, and there is an edge with more pheromone than the upper bound *)
Theorem best_reward_exceeds_the_bound_refuted junk rnd r : (forall m, r m <= 1) -> exists s0 s e x, init_aco real_num junk rnd demo1 = Some s0 /\
  run real_num [Walk r 0; Credit 0 (1 / 100); Remember; Reward; Taus; RewardBest] s0 = Some s /\ edge_pher s e = Some x /\ s_max s < x.
Proof.
  intros Hr. pose proof demo1_ok as Hk. assert (Ht : 0 <= k_tau demo1) by (cbn; lra). assert (Hp : 0 < k_p demo1 < 1) by (cbn; lra).
  destruct (init_aco_builds_the_space real_num junk rnd demo1 Hk) as (s0 & E0 & _ & Len & _ & _ & _ & Hph & _ & Hcr & _). exists s0.
  assert (R0 : reached real_num demo1 s0) by (by exists junk, rnd, [], s0). destruct (init_taus _ _ _ _ Hk E0) as [Emin0 Emax0]. assert (S0 := init_healthy _ _ _ _ Hk ltac:(cbn; lra) E0).
  assert (B0 : s_best_pher s0 = 0 /\ s_iter s0 = 0%nat). { destruct (init_aco_ok real_num junk rnd demo1 Hk) as (ts & nodes & edges & E' & _). rewrite E' in E0. injection E0 as <-. done. }
  destruct B0 as [B0 I0]. destruct (good_step demo1 s0 (Walk r 0) Hk Hp R0 S0) as (s1 & Q1 & R1' & S1); [cbn; split; [lia|done]|].
  destruct (a_walk_sets_a_trail real_num demo1 s0 s1 (Walk r 0) 0 Hk R0 Q1 ltac:(left; eauto)) as (t & Es1 & _ & Lt & _ & Et1).
  destruct (good_step demo1 s1 (Credit 0 (1 / 100)) Hk Hp R1' S1) as (s2 & Q2 & R2 & S2); [cbn; split; [lia|lra]|].
  assert (Es2 : s2 = with_phers s1 [1 / 100; 0; 0; 0]). { cbn [run_call] in Q2. unfold set_pheromone_to_index in Q2. rewrite Es1 in Q2. cbn [with_trails s_phers] in Q2. rewrite Hcr in Q2. cbn in Q2. injection Q2 as <-. by rewrite Es1. }
  destruct (remember_keeps_the_best demo1 s2 Hk R2) as (s3 & Q3 & A3 & F3 & G3 & C3). assert (R3 := reached_step _ _ _ _ _ R2 Q3).
  assert (P2 : s_phers s2 = [1 / 100; 0; 0; 0]) by (by rewrite Es2). assert (Eb3 : s_best s3 = t /\ s_best_pher s3 = 1 / 100).
  { rewrite P2 in F3. apply list.Forall_cons in F3 as [F3 _]. assert (B2 : s_best_pher s2 = 0) by (rewrite Es2, Es1; done). destruct C3 as [[_ C3]|(a & C1 & C2 & C4)]; [lra|]. rewrite P2 in C2.
    destruct a as [|[|[|[|a]]]]; cbn in C2; try done; injection C2 as C2; try lra. rewrite Es2 in C1. cbn in C1. rewrite Et1 in C1. by injection C1 as <-. }
  destruct Eb3 as [Eb3 Ex3]. destruct (reached_clear real_num demo1 s2 Hk R2) as (ts & H2 & _). destruct (run_call_frame real_num demo1 ts Remember s2 s3 H2 Q3) as (_ & _ & T3 & _ & _ & P3).
  destruct (T3 ltac:(done)) as [Mx3 Mn3]. specialize (P3 ltac:(done)). assert (Etr3 : s_trails s3 !! 0%nat = Some t).
  { cbn [run_call] in Q3. destruct (remember_ok demo1 ts s2 H2) as (b & x & E & _). rewrite E in Q3. injection Q3 as <-. cbn. by rewrite Es2. }
  assert (Hg3 : s_graph s3 = s_graph s0) by (rewrite G3, Es2, Es1; done). assert (Hi3 : s_iter s3 = 0%nat).
  { cbn [run_call] in Q3. destruct (remember_ok demo1 ts s2 H2) as (b & x & E & _). rewrite E in Q3. injection Q3 as <-. cbn. rewrite Es2, Es1. done. }
  assert (Hm3 : s_min s3 = 0 /\ s_max s3 = 1). { rewrite Mx3, Mn3, Es2, Es1. cbn. by rewrite Emin0, Emax0. } destruct Hm3 as [Hm3 HM3].
  destruct (beside s3 t) as (e & He & Hoff). { rewrite Hg3, Len, Lt. cbn. lia. }
  assert (Eo3 : edge_pher s3 e = Some 1). { unfold edge_pher. destruct (lookup_lt_is_Some_2 _ _ He) as [y Ey]. rewrite Ey. cbn. f_equal. rewrite Hg3 in Ey. rewrite list.Forall_forall in Hph. rewrite (Hph y); [done|by eapply elem_of_list_lookup_2]. }
  destruct (reward_rule demo1 s3 0 t (1 / 100) Hk Ht R3 Etr3) as (s4 & Q4 & I4 & _ & _ & F4).
  { rewrite P3, P2. split; [done|]. intros [|[|[|[|j]]]] y Ej; cbn in Ej; try done; injection Ej as <-; split; try lra; intros; lia. }
  specialize (F4 e 1 Eo3). rewrite Hoff, Hm3, HM3 in F4. cbn [k_p demo1] in F4. unfold clamp in F4. rewrite Rmin_right, Rmax_right in F4 by lra. assert (R4 := reached_step _ _ _ _ _ R3 Q4).
  destruct (reached_clear real_num demo1 s3 Hk R3) as (ts3 & H3 & Hc3). destruct (run_call_frame real_num demo1 ts3 Reward s3 s4 H3 Q4) as (_ & _ & _ & _ & B4 & _). destruct (B4 ltac:(done) ltac:(done)) as [Bp4 Bb4].
  assert (Sm4 : edge_on s4 t e = false).
  { rewrite <- Hoff. apply edge_on_same; [|destruct (trail_ok_of real_num demo1 ts3 s3 t H3) as (l & ? & _); [rewrite <- Eb3; apply (i_best _ _ _ _ H3)|by exists l]].
    cbn [run_call] in Q4. unfold update_pheromones in Q4. destruct (best_ant real_num s3) as [b|]; [|done]. cbn [mbind option_bind] in Q4. destruct (on_path_edges _ _ _) as [g1|] eqn:Eg1; [|done]. cbn [mbind option_bind] in Q4.
    destruct (each _ _ g1) as [g2|] eqn:Eg2; [|done]. cbn [mbind option_bind] in Q4. injection Q4 as <-. cbn. eapply same_trans; [eapply on_path_edges_same; [|exact Eg1]; done|].
    eapply each_edge_same; [|exact Eg2]. intros n. unfold fade_edge. by destruct (g_flag n). }
  assert (Q5 : run_call real_num Taus s4 = Some (update_taus real_num s4)) by done. assert (R5 := reached_step _ _ _ _ _ R4 Q5).
  assert (E5 : s_graph (update_taus real_num s4) = s_graph s4 /\ s_best (update_taus real_num s4) = s_best s4 /\ s_iter (update_taus real_num s4) = s_iter s4 /\ s_max (update_taus real_num s4) = 1 / 50).
  { destruct (average_of demo1 s4 Hk R4) as (_ & Ep & _). assert (Hit : (s_iter s4 =? 1)%nat = true) by (by rewrite I4, Hi3). unfold update_taus. rewrite Hit, orb_true_r. cbn [with_taus s_graph s_best s_iter s_max]. repeat (split; [done|]). cbn. rewrite Ep, Bp4, Ex3. cbn. field. }
  set (s5 := update_taus real_num s4) in *. destruct E5 as (Eg5 & Eb5 & Ei5 & Em5). destruct (reward_best_rule demo1 s5 Hk Ht R5 ltac:(cbn; lia)) as (s6 & Q6 & _ & _ & _ & F6).
  assert (Eo5 : edge_pher s5 e = Some (1 * (1 / 2) + 0)) by (unfold edge_pher; rewrite Eg5; exact F4). specialize (F6 ltac:(apply Nat.divide_1_l) e _ Eo5).
  assert (On5 : edge_on s5 (s_best s5) e = false) by (unfold edge_on; rewrite Eb5, Bb4, Eb3, Eg5; exact Sm4). rewrite On5 in F6.
  exists s6, e. eexists. split; [done|]. split; [|split; [exact F6|]].
  - cbn [run]. rewrite Q1. cbn [mbind option_bind]. rewrite Q2. cbn [mbind option_bind]. rewrite Q3. cbn [mbind option_bind]. rewrite Q4. cbn [mbind option_bind]. rewrite Q5. cbn [mbind option_bind]. rewrite Q6. done.
  - destruct (reached_clear real_num demo1 s5 Hk R5) as (ts5 & H5 & _). destruct (run_call_frame real_num demo1 ts5 RewardBest s5 s6 H5 Q6) as (_ & _ & T6 & _). destruct (T6 ltac:(done)) as [-> _]. rewrite Em5.
    eapply Rlt_le_trans; [|apply Rmax_r]. cbn. lra.
Qed.

(** the theorems apply: two rounds of the four ants, with all random numbers 1/3 and the credits 1, 2, 3 and 4 *)
Example two_rounds (junk : bool) (rnd : nat -> R) : exists s0 s, init_aco real_num junk rnd demo = Some s0 /\
  run real_num (round (replicate 4 (fun _ => 1 / 3)) [1; 2; 3; 4] ++ round (replicate 4 (fun _ => 1 / 3)) [1; 2; 3; 4]) s0 = Some s /\ healthy s.
Proof.
  destruct (rounds_never_stop junk rnd demo (replicate 2 (replicate 4 (fun _ => 1 / 3), [1; 2; 3; 4])) demo_ok) as (s0 & s & E0 & E & HS); try (cbn; (lia || lra)).
  - apply list.Forall_replicate. cbn [fst snd]. repeat (split; [done|]). split; [apply list.Forall_replicate; intros; lra|repeat constructor; lra].
  - exists s0, s. cbn in E. rewrite ?app_nil_r in E. done.
Qed.
(** after a walk the leading ant of the rules exists *)
Example leader_exists (junk : bool) (rnd r : nat -> R) : (forall m, r m <= 1) -> exists s t, reached real_num demo s /\ unmarked s /\ s_trails s !! 1%nat = Some t /\ t <> [] /\ first_max (s_phers s) 1 (1 / 2).
Proof.
  intros Hr. destruct (search_starts_healthy junk rnd demo demo_ok ltac:(cbn; lra)) as (s0 & E0 & R0 & S0). assert (Hp : 0 < k_p demo < 1) by (cbn; lra).
  destruct (init_aco_builds_the_space real_num junk rnd demo demo_ok) as (s0' & E0' & _ & _ & _ & _ & _ & _ & _ & Hcr & _). rewrite E0 in E0'. injection E0' as <-.
  destruct (good_step demo s0 (Walk r 1) demo_ok Hp R0 S0) as (s1 & Q1 & R1' & S1); [cbn; split; [lia|done]|].
  destruct (a_walk_sets_a_trail real_num demo s0 s1 (Walk r 1) 1 demo_ok R0 Q1 ltac:(left; eauto)) as (t & Es1 & _ & Lt & Hne & Et1).
  destruct (good_step demo s1 (Credit 1 (1 / 2)) demo_ok Hp R1' S1) as (s2 & Q2 & R2 & S2); [cbn; split; [lia|lra]|].
  assert (Es2 : s2 = with_phers s1 [0; 1 / 2; 0; 0]). { cbn [run_call] in Q2. unfold set_pheromone_to_index in Q2. rewrite Es1 in Q2. cbn [with_trails s_phers] in Q2. rewrite Hcr in Q2. cbn in Q2. injection Q2 as <-. by rewrite Es1. }
  exists s2, t. split; [done|]. split; [apply S2|]. rewrite Es2. cbn [with_phers s_trails s_phers]. split; [done|]. split; [done|]. split; [done|].
  intros [|[|[|[|j]]]] y Ej; cbn in Ej; try done; injection Ej as <-; split; try lra; intros; try lra; lia.
Qed.
(** setups for the two defects of update_taus *)
Example narrow_ok : setup_ok real_num (Setup [2; 3]%nat [1; 1]%nat [3; 3]%nat [Some 1%nat] 4 2 (1 / 2) 1 (1 / 10)) /\ setup_ok real_num (Setup [2; 3]%nat [2; 2]%nat [3; 3]%nat [Some 1%nat] 4 2 (1 / 2) 1 (1 / 10)).
Proof.
  split; (split; cbn; [lia|repeat constructor; lia|lia|repeat constructor; lia|lia|lia|repeat constructor; lia|]); rewrite !bool_decide_eq_false_2 by lra; done.
Qed.

Print Assumptions reward_rule.
Print Assumptions reward_nodes_rule.
Print Assumptions reward_all_rule.
Print Assumptions reward_best_rule.
Print Assumptions reward_best_nodes_rule.
Print Assumptions refresh_rule.
Print Assumptions remember_keeps_the_best.
Print Assumptions best_never_lost.
Print Assumptions stagnation_rule.
Print Assumptions healthy_search_goes_on.
Print Assumptions search_starts_healthy.
Print Assumptions rounds_never_stop.
Print Assumptions credit_behind_the_last_ant_refuted.
Print Assumptions period_zero_refuted.
Print Assumptions lower_bound_negative_refuted.
Print Assumptions lower_bound_divides_by_zero_refuted.
Print Assumptions subnodes_leave_a_mark_refuted.
Print Assumptions best_reward_exceeds_the_bound_refuted.
