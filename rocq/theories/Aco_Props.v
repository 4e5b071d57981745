(** C60: the ant-colony search over networks builds the search space it was asked for, every trail of an ant is a network of that space, and
    every network of that space is the trail of some ant.  See Aco_Spec for [setup_ok], [candidate], [network_for] and [reached]. *)
From Coq Require Import Reals Lra.
From Verif Require Import BaseLemmas Aco_Spec Aco_Proofs Aco2_Proofs Aco3_Proofs Aco4_Proofs Aco5_Proofs Aco6_Proofs Aco7_Proofs Aco8_Proofs Aco9_Proofs.
Open Scope nat_scope.

Section any.
Context {F : Type} (O : num F).
Implicit Types (k : setup F) (s : aco F).

(** init_aco succeeds for every valid setup.  The graph has exactly the nodes and edges of the space, each listed once; all pheromones are
    tau_max; no ant has a trail; the candidate 0 of every weight is 0 and the others are the random values of their nodes *)
Theorem init_aco_builds_the_space junk rnd k : setup_ok O k -> exists s, init_aco O junk rnd k = Some s /\
  length (g_nodes (s_graph s)) = 1 + count_nodes (k_sizes k) (k_widths k) (k_acts k) /\ length (g_edges (s_graph s)) = count_edges 1 (k_sizes k) (k_widths k) (k_acts k) /\
  s_nodes s ≡ₚ seq 0 (length (g_nodes (s_graph s))) /\ s_edges s ≡ₚ seq 0 (length (g_edges (s_graph s))) /\
  Forall (fun n => o_pher n = k_tau k) (g_nodes (s_graph s)) /\ Forall (fun e => g_pher e = k_tau k) (g_edges (s_graph s)) /\
  s_trails s = replicate (k_ants k) [] /\ s_phers s = replicate (k_ants k) (n_z O 0) /\
  (forall i a b w q c, k_sizes k !! i = Some a -> k_sizes k !! (i + 1) = Some b -> k_widths k !! i = Some w -> q < a * b -> c < w ->
    exists id, nth i (s_layers s) [] !! (q * w + c) = Some id /\ candidate s i q c = Some (if decide (c = 0) then n_z O 0 else rnd id)).
Proof.
  intros Hk. destruct (init_aco_ok O junk rnd k Hk) as (ts & nodes & edges & E & PN & PE & HL). eexists. split; [exact E|]. destruct (inv_init O junk rnd k _ Hk E) as [ts' H'].
  destruct (inv_counts O k _ _ Hk H') as [C1 C2]. pose proof (inv_len _ _ _ _ H') as L1. pose proof (inv_elen _ _ _ _ H') as L2.
  pose proof (i_nodes _ _ _ _ H') as I1. pose proof (i_edges _ _ _ _ H') as I2. split; [by rewrite L1, C1|]. split; [by rewrite L2, C2|]. split; [by rewrite L1|]. split; [by rewrite L2|].
  cbn [s_graph ready g_nodes g_edges]. split; [apply list.Forall_fmap, list.Forall_true; done|]. split; [apply list.Forall_fmap, list.Forall_true; done|]. split; [done|]. split; [done|].
  intros i a b w q c. intros. by eapply init_candidate.
Qed.

(** in every state that a program reaches, an ant that has a trail has a network of the space: every layer has its sizes, every weight is the
    current value of one of its candidates, the biases are 0 and the activation is an allowed one *)
Theorem every_trail_is_a_network k s ant t : setup_ok O k -> reached O k s -> s_trails s !! ant = Some t -> t <> [] ->
  length t = path_length (k_sizes k) /\ exists cs m, get_model O s ant = Some m /\ network_for O k s cs m.
Proof.
  intros Hk Hr Ht Hne. destruct (reached_inv O k s Hk Hr) as [ts H]. assert (Hf : trail_ok k ts t).
  { pose proof (i_trails _ _ _ _ H) as Hf. rewrite list.Forall_forall in Hf. apply Hf. by eapply elem_of_list_lookup_2. }
  destruct Hf as [?|Hf]; [done|]. split; [|by eapply get_model_ok]. rewrite <- (rows_length O k Hk). apply Hf.
Qed.
(** a walk changes nothing but the trail of its ant, which it sets *)
Theorem a_walk_sets_a_trail k s s' c ant : setup_ok O k -> reached O k s -> run_call O c s = Some s' ->
  (exists rnd, c = Walk rnd ant) \/ (exists rnd, c = WalkNodes rnd ant) \/ (exists rnd from to, c = WalkSubnodes rnd from to ant) \/ c = WalkBest ant ->
  exists t, s' = with_trails s (<[ant := t]> (s_trails s)) /\ ant < k_ants k /\ length t = path_length (k_sizes k) /\ t <> [] /\ s_trails s' !! ant = Some t.
Proof.
  intros Hk Hr E Hc. destruct (reached_inv O k s Hk Hr) as [ts H]. assert (HW : exists rules, build_path_by O rules s ant = Some s').
  { destruct Hc as [(rnd & ->)|[(rnd & ->)|[(rnd & from & to & ->)| ->]]]; cbn [run_call] in E; unfold build_path, build_path_nodes, build_path_subnodes, build_best_path in E; eauto. }
  destruct HW as [rules EW]. destruct (build_path_by_inv O k ts s rules ant s' H EW) as (t & Hf & Ha & ->). exists t. split; [done|]. split; [by rewrite <- (i_ants _ _ _ _ H)|].
  assert (L : length t = path_length (k_sizes k)) by (rewrite <- (rows_length O k Hk); apply Hf). split; [done|]. split.
  - intros ->. cbn in L. destruct (k_sizes k) as [|a [|b l]] eqn:Es; [pose proof (ok_layers O k Hk) as Z; rewrite Es in Z; cbn in Z; lia..|]. cbn in L. lia.
  - cbn. by apply list_lookup_insert.
Qed.
(** a walk along the best nodes always succeeds *)
Theorem best_walk_succeeds k s ant : setup_ok O k -> reached O k s -> ant < k_ants k -> exists s', run_call O (WalkBest ant) s = Some s'.
Proof. intros Hk Hr Ha. destruct (reached_inv O k s Hk Hr) as [ts H]. by eapply best_path_ok. Qed.

(** refuted: the network of get_best_model is not a network of the space.  All but the first weight of every layer are 0, whatever the
    candidates and the pheromones are: it is built for another kind of edge than init_aco makes *)
Theorem get_best_model_drops_the_weights_refuted k s : setup_ok O k -> reached O k s -> exists m, get_best_model O s = Some m /\ length m = length (k_sizes k) - 1 /\
  forall i l, m !! i = Some l -> k_sizes k !! i = Some (l_in l) /\ k_sizes k !! (i + 1) = Some (l_out l) /\ length (l_weights l) = l_in l * l_out l /\
    forall q, 0 < q < l_in l * l_out l -> l_weights l !! q = Some (n_z O 0).
Proof. intros Hk Hr. destruct (reached_inv O k s Hk Hr) as [ts H]. by eapply best_model_zeros. Qed.
End any.

Open Scope R_scope.
(** the roulette over the reals: for positive pheromones the edge i is taken exactly for the random numbers between the shares of the edges
    before it and those up to it, that is with a probability that is its share of the pheromones *)
Theorem roulette_takes_each_edge_with_its_share phs r i : Forall (fun x => 0 < x) phs -> phs <> [] -> r <= 1 ->
  choose real_num phs r = Some i <-> (i < length phs)%nat /\ r <= foldr Rplus 0 (take (S i) phs) / foldr Rplus 0 phs /\ (i = 0%nat \/ foldr Rplus 0 (take i phs) / foldr Rplus 0 phs < r).
Proof. apply choose_R_iff. Qed.
(** the walks of the ants succeed while the pheromones are positive *)
Theorem walks_succeed k s ant rnd : setup_ok real_num k -> reached real_num k s -> (ant < k_ants k)%nat -> (forall m, rnd m <= 1) ->
  (Forall (fun e => 0 < g_pher e) (g_edges (s_graph s)) -> exists s', run_call real_num (Walk rnd ant) s = Some s') /\
  (Forall (fun n => 0 < o_pher n) (g_nodes (s_graph s)) -> (exists s', run_call real_num (WalkNodes rnd ant) s = Some s') /\
    forall from to, exists s', run_call real_num (WalkSubnodes rnd from to ant) s = Some s').
Proof.
  intros Hk Hr Ha Hrnd. destruct (reached_inv real_num k s Hk Hr) as [ts H]. assert (Hw := inv_wf _ _ _ _ H). assert (Hadj := i_adj _ _ _ _ H).
  assert (HC : forall rules, (forall m, certain real_num (s_graph s) (rules m)) -> exists s', build_path_by real_num rules s ant = Some s').
  { intros rules Hc. destruct (walk_certain0 real_num k ts s rules H Hc) as (l & E & _). unfold build_path_by. rewrite E. cbn [mbind option_bind].
    rewrite wr_Some by (by rewrite (i_ants _ _ _ _ H)). by eexists. }
  split; [|intros Hp; split].
  - intros Hp. apply HC. intros m. by apply (walk_R_certain _ ts (rnd m) Hadj Hw (Hrnd m)).
  - apply HC. intros m. by apply (walk_R_certain _ ts (rnd m) Hadj Hw (Hrnd m)).
  - intros from to. apply HC. intros m. destruct (decide _); [by apply (walk_R_certain _ ts (rnd m) Hadj Hw (Hrnd m))|]. by apply (best_certain _ _ ts).
Qed.
(** every network of the space is found: for every choice of candidates and activations there are random numbers for which the ant walks to it *)
Theorem every_network_is_reached k s ant cs : setup_ok real_num k -> reached real_num k s -> (ant < k_ants k)%nat ->
  Forall (fun e => 0 < g_pher e) (g_edges (s_graph s)) -> length cs = (length (k_sizes k) - 1)%nat -> (forall i c, cs !! i = Some c -> choice_ok k i c) ->
  exists rnd s' m, (forall j, 0 <= rnd j <= 1) /\ run_call real_num (Walk rnd ant) s = Some s' /\ get_model real_num s' ant = Some m /\ network_for real_num k s cs m.
Proof.
  intros Hk Hr Ha Hp Lc Hc. destruct (reached_inv real_num k s Hk Hr) as [ts H]. destruct (every_choice real_num k ts s cs Hk H Lc Hc) as (t & m & Hf & Ef & Hn).
  destruct Hf as [Lt [ls Els]]. destruct (trail_rnd k ts s H Hp t 0%nat (0%nat, [0%nat]) 0%nat ls (S (length (g_nodes (s_graph s)))) 0%nat eq_refl ltac:(left) ltac:(lia) Els) as (rnd & Hrnd & Hw).
  { pose proof (rows_count _ _ _ (i_lay _ _ _ _ H)). rewrite (inv_len _ _ _ _ H). lia. }
  exists rnd, (with_trails s (<[ant := t]> (s_trails s))), m. split; [done|]. split; [|split; [|done]].
  - cbn [run_call]. unfold build_path, build_path_by. rewrite (Hw rnd) by done. cbn [mbind option_bind]. rewrite wr_Some by (by rewrite (i_ants _ _ _ _ H)). done.
  - unfold get_model, rd. cbn [with_trails s_trails s_graph]. rewrite list_lookup_insert by (by rewrite (i_ants _ _ _ _ H)). cbn [mbind option_bind]. by rewrite Ef.
Qed.

(** a setup with two layers, three and two candidates for each weight, any activation for the first layer and a sigmoid for the second *)
Definition demo : setup R := Setup [2; 3; 1]%nat [3; 2; 1]%nat [3; 3; 3]%nat [None; Some 1%nat] 4 2 (1 / 2) 1 (1 / 10).
Example demo_ok : setup_ok real_num demo.
Proof.
  split; cbn; [lia|repeat constructor; lia|lia|repeat constructor; lia|lia|lia|repeat constructor; lia|].
  rewrite !bool_decide_eq_false_2 by lra. done.
Qed.
Example demo_counts : count_nodes (k_sizes demo) (k_widths demo) (k_acts demo) = 33%nat /\ count_edges 1 (k_sizes demo) (k_widths demo) (k_acts demo) = 80%nat /\
  path_length (k_sizes demo) = 13%nat.
Proof. done. Qed.
(** the initial state is reached, its pheromones are positive, and the four ants walk *)
Example demo_reached junk rnd r : (forall m, r m <= 1) -> exists s0 s1, init_aco real_num junk rnd demo = Some s0 /\ reached real_num demo s0 /\
  Forall (fun e => 0 < g_pher e) (g_edges (s_graph s0)) /\ run_call real_num (Walk r 3) s0 = Some s1 /\ reached real_num demo s1 /\ exists t, s_trails s1 !! 3%nat = Some t /\ t <> [].
Proof.
  intros Hr. destruct (init_aco_builds_the_space real_num junk rnd demo demo_ok) as (s0 & E0 & _ & _ & _ & _ & _ & Hp & _).
  assert (R0 : reached real_num demo s0) by (exists junk, rnd, [], s0; done).
  assert (Hp' : Forall (fun e : edge R => 0 < g_pher e) (g_edges (s_graph s0))) by (eapply list.Forall_impl; [exact Hp|]; intros e ->; cbn; lra).
  destruct (walks_succeed demo s0 3 r demo_ok R0 ltac:(cbn; lia) Hr) as [Hw _]. destruct (Hw Hp') as [s1 E1]. exists s0, s1. repeat (split; [done|]). split.
  - exists junk, rnd, [Walk r 3], s0. split; [done|]. cbn [run]. rewrite E1. done.
  - destruct (a_walk_sets_a_trail real_num demo s0 s1 (Walk r 3) 3 demo_ok R0 E1 ltac:(left; eauto)) as (t & _ & _ & _ & ? & ?). eauto.
Qed.
Example demo_choice : forall i c, [Choice [2; 0; 1; 1; 2; 0]%nat 5; Choice [1; 0; 1]%nat 1] !! i = Some c -> choice_ok demo i c.
Proof.
  intros i c E. destruct i as [|[|i]]; cbn in E; [| |done]; injection E as <-.
  - exists 2%nat, 3%nat, 3%nat, None. repeat (split; [done|]). split; [repeat constructor|]. cbn. set_solver.
  - exists 3%nat, 1%nat, 2%nat, (Some 1%nat). repeat (split; [done|]). split; [repeat constructor|]. done.
Qed.
Example roulette_demo : choose real_num [1; 2; 1] (1 / 2) = Some 1%nat.
Proof. apply roulette_takes_each_edge_with_its_share; [repeat constructor; lra|done|lra|]. cbn. split; [lia|]. split; [lra|]. right. lra. Qed.

Print Assumptions init_aco_builds_the_space.
Print Assumptions every_trail_is_a_network.
Print Assumptions a_walk_sets_a_trail.
Print Assumptions best_walk_succeeds.
Print Assumptions get_best_model_drops_the_weights_refuted.
Print Assumptions roulette_takes_each_edge_with_its_share.
Print Assumptions walks_succeed.
Print Assumptions every_network_is_reached.
