(** No call changes the shape of the graph; trails stay trails. *)
From Verif Require Import BaseLemmas Aco_Spec Aco_Proofs Aco2_Proofs Aco3_Proofs Aco4_Proofs.
Open Scope nat_scope.

Section same.
Context {F : Type} (O : num F).
Implicit Types g : graph F.
Definition shape (b : body F) : body unit :=
  match b with Empty => Empty | Weight a b c _ => Weight a b c tt | Activation f => Activation f | Fcl i o => Fcl i o end.
Definition node_key (n : node F) := (o_inputs n, o_outputs n, shape (o_body n)).
Definition same g g' : Prop := node_key <$> g_nodes g' = node_key <$> g_nodes g /\ triple <$> g_edges g' = triple <$> g_edges g.
Lemma same_refl g : same g g. Proof. done. Qed.
Lemma same_trans g1 g2 g3 : same g1 g2 -> same g2 g3 -> same g1 g3.
Proof. intros [A B] [C D]. split; congruence. Qed.
Lemma same_nodes g g' : same g g' -> length (g_nodes g') = length (g_nodes g).
Proof. intros [A _]. apply (f_equal length) in A. by rewrite !fmap_length in A. Qed.
Lemma same_edges g g' : same g g' -> length (g_edges g') = length (g_edges g).
Proof. intros [_ A]. apply (f_equal length) in A. by rewrite !fmap_length in A. Qed.
Lemma same_adj g g' ts : same g g' -> adj g ts -> adj g' ts.
Proof.
  intros [A B] [H1 H2]. split; [congruence|]. intros u n En. apply (f_equal (fun l => l !! u)) in A. rewrite !list_lookup_fmap, En in A.
  destruct (g_nodes g !! u) as [m|] eqn:Em; [|done]. cbn in A. unfold node_key in A. injection A as A1 A2 A3. rewrite A1, A2. auto.
Qed.
Lemma on_node_same f i g g' : (forall n, node_key (f n) = node_key n) -> on_node f i g = Some g' -> same g g'.
Proof.
  intros Hf E. unfold on_node, rd in E. destruct (g_nodes g !! i) as [n|] eqn:En; [|done]. cbn [mbind option_bind] in E.
  rewrite wr_Some in E by (by eapply lookup_lt_Some). cbn [mbind option_bind] in E. injection E as <-. split; [|done]. cbn [g_nodes].
  rewrite list_fmap_insert, Hf. apply list_insert_id. rewrite list_lookup_fmap, En. done.
Qed.
Lemma on_edge_same f i g g' : (forall n, triple (f n) = triple n) -> on_edge f i g = Some g' -> same g g'.
Proof.
  intros Hf E. unfold on_edge, rd in E. destruct (g_edges g !! i) as [n|] eqn:En; [|done]. cbn [mbind option_bind] in E.
  rewrite wr_Some in E by (by eapply lookup_lt_Some). cbn [mbind option_bind] in E. injection E as <-. split; [done|]. cbn [g_edges].
  rewrite list_fmap_insert, Hf. apply list_insert_id. rewrite list_lookup_fmap, En. done.
Qed.
Lemma each_same {A} (f : A -> graph F -> option (graph F)) l g g' : (forall x g g', f x g = Some g' -> same g g') -> each f l g = Some g' -> same g g'.
Proof.
  intros Hf. revert g. induction l as [|x l IH]; intros g E; cbn in E; [injection E as <-; apply same_refl|].
  destruct (f x g) as [g1|] eqn:E1; [|done]. eapply same_trans; [by eapply Hf|by apply IH].
Qed.
Lemma for_loop_same (f : nat -> graph F -> option (graph F)) cnt : forall i g g', (forall x g g', f x g = Some g' -> same g g') -> for_loop cnt i f g = Some g' -> same g g'.
Proof.
  induction cnt as [|cnt IH]; intros i g g' Hf E; cbn in E; [injection E as <-; apply same_refl|].
  destruct (f i g) as [g1|] eqn:E1; [|done]. eapply same_trans; [by eapply Hf|by eapply IH].
Qed.
Lemma along_same f h path : (forall n, triple (f n) = triple n) -> (forall k n, node_key (h k n) = node_key n) ->
  forall k x g g', along f h k x path g = Some g' -> same g g'.
Proof.
  intros Hf Hh. induction path as [|i path IH]; intros k x g g' E; cbn in E; [injection E as <-; apply same_refl|].
  destruct (rd (g_nodes g) x) as [n|]; [|done]. cbn [mbind option_bind] in E. destruct (decide _); [injection E as <-; apply same_refl|].
  destruct (rd (o_outputs n) i) as [e|]; [|done]. cbn [mbind option_bind] in E. destruct (rd (g_edges g) e) as [y|]; [|done]. cbn [mbind option_bind] in E.
  destruct (on_edge f e g) as [g1|] eqn:E1; [|done]. cbn [mbind option_bind] in E. destruct (on_node (h k) (g_out y) g1) as [g2|] eqn:E2; [|done]. cbn [mbind option_bind] in E.
  eapply same_trans; [eapply on_edge_same; [|exact E1]; done|]. eapply same_trans; [eapply on_node_same; [|exact E2]; auto|]. by eapply IH.
Qed.

(** a trail as a list of links *)
Fixpoint steps (ts : list link) (x : nat) (trail : list nat) : option (list link) :=
  match trail with [] => Some [] | i :: trail => t ← from_ x ts !! i; l ← steps ts t.1.2 trail; Some (t :: l) end.
Definition full (ts : list link) (rows : list (nat * list nat)) (trail : list nat) : Prop :=
  length trail = length rows - 1 /\ exists ls, steps ts 0 trail = Some ls.
Definition bodies (k : setup F) : list (body F) := Empty :: bodies_all O (fun _ => n_z O 0) 1 (plan k).
Definition rows_ (k : setup F) : list (nat * list nat) := (0, [0]) :: rows_all 1 (plan k).
Definition trail_ok (k : setup F) ts (t : list nat) : Prop := t = [] \/ full ts (rows_ k) t.
Record inv (k : setup F) (ts : list link) (s : aco F) : Prop := Inv {
  i_lay : lay (bodies k) ts (rows_ k); i_adj : adj (s_graph s) ts; i_shape : (shape ∘ o_body) <$> g_nodes (s_graph s) = shape <$> bodies k;
  i_nodes : s_nodes s ≡ₚ seq 0 (length (bodies k)); i_edges : s_edges s ≡ₚ seq 0 (length ts); i_layers : s_layers s = ids_all 1 (plan k);
  i_sizes : s_sizes s = k_sizes k; i_widths : s_widths s = k_widths k; i_depths : s_depths s = k_depths k; i_p : s_p s = k_p k; i_pdec : s_pdec s = k_pdec k;
  i_every : s_every s = k_every k; i_avg : s_average s = n_z O (Z.of_nat (length ts / length (bodies k)));
  i_ants : length (s_trails s) = k_ants k; i_ants' : length (s_phers s) = k_ants k;
  i_trails : Forall (trail_ok k ts) (s_trails s); i_best : trail_ok k ts (s_best s) }.
Lemma lay_length (bs bs' : list (body F)) ts rows : length bs = length bs' -> lay bs ts rows -> lay bs' ts rows.
Proof. intros E [A B C D]. split; [by rewrite <- E|done|by rewrite <- E|done]. Qed.
Lemma bodies_length k : length (bodies k) = 1 + psum (plan k).
Proof. unfold bodies. cbn [length]. by rewrite bodies_all_length. Qed.
Lemma inv_len k ts s : inv k ts s -> length (g_nodes (s_graph s)) = length (bodies k).
Proof. intros H. pose proof (f_equal length (i_shape _ _ _ H)) as E. by rewrite !fmap_length in E. Qed.
Lemma inv_elen k ts s : inv k ts s -> length (g_edges (s_graph s)) = length ts.
Proof. intros H. rewrite <- (proj1 (i_adj _ _ _ H)). by rewrite fmap_length. Qed.
Lemma inv_by_rows k ts s : inv k ts s -> by_rows (s_graph s) ts (rows_ k).
Proof.
  intros H. split; [apply (i_adj _ _ _ H)|]. pose proof (lay_by_rows O _ ts _ (bodies k) [] (i_lay _ _ _ H) ltac:(lia) ltac:(done)) as [_ Hb].
  rewrite app_nil_r in Hb. intros p r u Hp Hu. destruct (Hb p r u Hp Hu) as [A B]. split; [done|]. rewrite mk_length in B. by rewrite (inv_len _ _ _ H).
Qed.

Lemma shape_wbodies rnd rnd' b i o w : shape <$> wbodies O rnd b i o w = shape <$> wbodies O rnd' b i o w.
Proof. unfold wbodies. rewrite <- !list_fmap_compose. apply list_fmap_ext. intros j x _. done. Qed.
Lemma shape_bodies rnd rnd' b ps : shape <$> bodies_all O rnd b ps = shape <$> bodies_all O rnd' b ps.
Proof.
  revert b. induction ps as [|p ps IH]; intros b; [done|]. cbn [bodies_all]. rewrite !fmap_app, IH. f_equal. unfold pbodies, lbodies. rewrite !fmap_app.
  by rewrite (shape_wbodies rnd rnd').
Qed.
Lemma inv_init junk rnd k s : setup_ok O k -> init_aco O junk rnd k = Some s -> exists ts, inv k ts s.
Proof.
  intros Hk E. destruct (init_aco_ok O junk rnd k Hk) as (ts & nodes & edges & E' & PN & PE & HL). rewrite E' in E. injection E as <-. exists ts.
  assert (Lb : length (Empty :: bodies_all O rnd 1 (plan k)) = length (bodies k)) by (rewrite bodies_length; cbn [length]; by rewrite bodies_all_length).
  split; cbn [s_graph s_nodes s_edges s_layers s_sizes s_widths s_depths s_p s_pdec s_every s_average s_trails s_phers s_best]; try done.
  - by eapply lay_length.
  - destruct (adj_mk O (Empty :: bodies_all O rnd 1 (plan k)) ts) as [A B]. split.
    + cbn [ready g_edges mk] in *. rewrite <- list_fmap_compose. etrans; [|exact A]. apply list_fmap_ext. intros i x _. done.
    + intros u n En. cbn [ready g_nodes] in En. rewrite list_lookup_fmap in En. destruct (g_nodes (mk O _ ts) !! u) as [m|] eqn:Em; [|done].
      cbn in En. injection En as <-. cbn. apply (B u m Em).
  - cbn [ready g_nodes mk]. unfold bodies. rewrite !fmap_cons. change (shape <$> bodies_all O (fun _ => n_z O 0) 1 (plan k)) with (shape <$> bodies_all O (fun _ => n_z O 0) 1 (plan k)).
    rewrite (shape_bodies _ rnd). change (shape Empty :: (shape <$> bodies_all O rnd 1 (plan k))) with (shape <$> (Empty :: bodies_all O rnd 1 (plan k))).
    rewrite <- list_fmap_compose. apply list_eq. intros i. rewrite !list_lookup_fmap, list_lookup_imap. destruct (_ !! i); done.
  - by rewrite <- Lb.
  - by rewrite <- Lb.
  - apply replicate_length.
  - apply replicate_length.
  - apply Forall_replicate. by left.
  - by left.
Qed.

Lemma inv_graph k ts s g : inv k ts s -> same (s_graph s) g -> inv k ts (with_graph s g).
Proof.
  intros [] Hs. split; cbn [with_graph s_graph]; try done.
  - by eapply same_adj.
  - rewrite <- i_shape0. destruct Hs as [A _]. apply (f_equal (fmap snd)) in A. rewrite <- !list_fmap_compose in A. exact A.
Qed.
Lemma inv_iter k ts s i : inv k ts s -> inv k ts (with_iter s i).
Proof. by intros []. Qed.
Lemma inv_taus k ts s a b : inv k ts s -> inv k ts (with_taus s a b).
Proof. by intros []. Qed.
Lemma inv_best k ts s b x : inv k ts s -> trail_ok k ts b -> inv k ts (with_best s b x).
Proof. by intros []. Qed.
Lemma inv_phers k ts s l : inv k ts s -> length l = length (s_phers s) -> inv k ts (with_phers s l).
Proof. intros [] E. split; try done. cbn. congruence. Qed.
Lemma inv_trails k ts s i t : inv k ts s -> full ts (rows_ k) t -> inv k ts (with_trails s (<[i := t]> (s_trails s))).
Proof. intros [] E. split; try done. - cbn. by rewrite insert_length. - cbn. apply Forall_insert; [done|]. by right. Qed.

Lemma walk_full k ts s rules : inv k ts s -> forall fuel size p r x l, rows_ k !! p = Some r -> x ∈ r.2 -> walk O fuel (s_graph s) rules size x = Some l ->
  length l = length (rows_ k) - 1 - p /\ exists ls, steps ts x l = Some ls.
Proof.
  intros H. pose proof (inv_by_rows _ _ _ H) as Hby. induction fuel as [|fuel IH]; intros size p r x l Hp Hx E; [done|]. cbn [walk] in E.
  destruct (node_rows _ _ _ _ _ _ Hby Hp Hx) as [n En]. pose proof (outputs_rows _ _ _ _ _ _ _ Hby Hp Hx En) as Lo. pose proof (lookup_lt_Some _ _ _ Hp) as Lp.
  unfold next_index, rd in E. rewrite En in E. cbn [mbind option_bind] in E. destruct (decide (o_outputs n = [])) as [Eo|Eo].
  - cbn in E. injection E as <-. split; [|by eexists]. rewrite Eo in Lo. destruct (rows_ k !! S p) as [r'|] eqn:Hp'.
    + pose proof (lay_ne _ _ _ (i_lay _ _ _ H)) as Hne. rewrite list.Forall_forall in Hne. specialize (Hne r' (elem_of_list_lookup_2 _ _ _ Hp')). by destruct r'.2.
    + apply lookup_ge_None in Hp'. cbn [length]. lia.
  - match type of E with mbind _ (mbind _ ?o) = _ => destruct o as [i|]; [|done] end. cbn [mbind option_bind] in E.
    destruct (child (s_graph s) x i) as [c|] eqn:Ec; [|done]. cbn [mbind option_bind] in E. destruct (walk O fuel _ rules (S size) c) as [l'|] eqn:El; [|done].
    cbn in E. injection E as <-. rewrite (child_adj _ ts) in Ec; [|apply Hby|by eapply lookup_lt_Some]. destruct (from_ x ts !! i) as [t|] eqn:Et; [|done].
    cbn in Ec. injection Ec as <-. destruct (proj2 Hby p r x Hp Hx) as [Ef _]. assert (Ht := elem_of_list_lookup_2 _ _ _ Et). rewrite Ef in Ht.
    destruct (rows_ k !! S p) as [r'|] eqn:Hp'; [|by apply not_elem_of_nil in Ht]. cbn in Ht. apply elem_of_list_fmap in Ht as (c & -> & Hc). cbn in El.
    destruct (IH _ _ _ _ _ Hp' Hc El) as (L & ls & Els). apply lookup_lt_Some in Hp'. split; [cbn [length]; lia|]. cbn [steps]. rewrite Et. cbn [mbind option_bind].
    cbn. rewrite Els. by eexists.
Qed.
Lemma build_path_by_inv k ts s rules ant s' : inv k ts s -> build_path_by O rules s ant = Some s' ->
  exists t, full ts (rows_ k) t /\ ant < length (s_trails s) /\ s' = with_trails s (<[ant := t]> (s_trails s)).
Proof.
  intros H E. unfold build_path_by in E. destruct (walk O _ _ rules 0 0) as [l|] eqn:El; [|done]. cbn [mbind option_bind] in E.
  destruct (wr (s_trails s) ant l) as [t|] eqn:Et; [|done]. cbn in E. injection E as <-. apply wr_inv in Et as [Ha ->].
  exists l. split; [|done]. destruct (walk_full k ts s rules H _ _ 0 (0, [0]) 0 l eq_refl ltac:(left) El) as [L Hl]. split; [lia|done].
Qed.

Lemma update_best_trail_inv k ts s s' : inv k ts s -> update_best_trail O s = Some s' -> inv k ts s'.
Proof.
  intros H E. unfold update_best_trail in E. revert E. generalize 0 at 1. generalize (length (s_trails s)). intros n. revert s H.
  induction n as [|n IH]; intros s H i E; cbn in E; [by injection E as <-|].
  destruct (rd (s_phers s) i) as [x|]; [|done]. cbn [mbind option_bind] in E. destruct (rd (s_trails s) i) as [t|] eqn:Et; [|done]. cbn [mbind option_bind] in E.
  eapply IH; [|exact E]. destruct (n_lt O _ x); [|done]. apply inv_best; [done|]. pose proof (i_trails _ _ _ H) as Hf. rewrite list.Forall_forall in Hf.
  apply Hf. by eapply elem_of_list_lookup_2.
Qed.

Ltac bnd H x E := match type of H with mbind _ ?o = _ => destruct o as [x|] eqn:E; [|done] end; cbn [mbind option_bind] in H.
Lemma on_path_edges_same f t g g' : (forall n, triple (f n) = triple n) -> on_path_edges f t g = Some g' -> same g g'.
Proof. intros Hf. apply along_same; [done|]. done. Qed.
Lemma on_path_nodes_same h t g g' : (forall k n, node_key (h k n) = node_key n) -> on_path_nodes h t g = Some g' -> same g g'.
Proof. intros Hf. apply along_same; [|done]. done. Qed.
Lemma each_edge_same f l g g' : (forall n, triple (f n) = triple n) -> each (on_edge f) l g = Some g' -> same g g'.
Proof. intros Hf. apply each_same. intros x g1 g2. by apply on_edge_same. Qed.
Lemma each_node_same f l g g' : (forall n, node_key (f n) = node_key n) -> each (on_node f) l g = Some g' -> same g g'.
Proof. intros Hf. apply each_same. intros x g1 g2. by apply on_node_same. Qed.
Lemma fade_edge_key f (n : edge F) : triple (fade_edge f n) = triple n. Proof. unfold fade_edge. by destruct (g_flag n). Qed.
Lemma fade_node_key f (n : node F) : node_key (fade_node f n) = node_key n. Proof. unfold fade_node. by destruct (o_flag n). Qed.
Lemma set_weight_key w (n : node F) : node_key (set_weight w n) = node_key n. Proof. unfold node_key, set_weight. cbn. by destruct (o_body n). Qed.
Hint Resolve fade_edge_key fade_node_key set_weight_key same_refl : core.

Lemma reset_flags_inv k ts s s' : inv k ts s -> reset_flags s = Some s' -> inv k ts s'.
Proof.
  intros H E. unfold reset_flags in E. bnd E g1 E1. bnd E g2 E2. injection E as <-. apply inv_graph; [done|].
  eapply same_trans; [eapply each_node_same; [|exact E1]; done|eapply each_edge_same; [|exact E2]; done].
Qed.
Lemma recompute_inv d k ts s s' : inv k ts s -> recompute_pheromones O d s = Some s' -> inv k ts s'.
Proof. intros H E. unfold recompute_pheromones in E. bnd E g1 E1. injection E as <-. apply inv_graph; [done|]. eapply each_edge_same; [|exact E1]. done. Qed.
Lemma recompute_nodes_inv d k ts s s' : inv k ts s -> recompute_pheromones_nodes O d s = Some s' -> inv k ts s'.
Proof. intros H E. unfold recompute_pheromones_nodes in E. bnd E g1 E1. injection E as <-. apply inv_graph; [done|]. eapply each_node_same; [|exact E1]. done. Qed.
Lemma share_row_same nodes w j g g' : share_row O nodes w j g = Some g' -> same g g'.
Proof. intros E. unfold share_row in E. bnd E row E1. bnd E b E2. eapply each_node_same; [|exact E]. done. Qed.
Lemma best_global_by_inv rows k ts s s' : inv k ts s -> best_global_by O rows s = Some s' -> inv k ts s'.
Proof.
  intros H E. unfold best_global_by in E. bnd E g1 E1. injection E as <-. apply inv_graph; [done|]. eapply for_loop_same; [|exact E1]. intros x g g' E. cbn beta in E.
  bnd E r E2. bnd E w E3. bnd E nodes E4. eapply for_loop_same; [|exact E]. intros. by eapply share_row_same.
Qed.
Lemma pso_step_same w r1 r2 i g g' : pso_step O w r1 r2 i g = Some g' -> same g g'.
Proof.
  intros E. unfold pso_step in E. bnd E n E1. bnd E p E2. bnd E m E3. destruct (differ _ _ _); [|injection E as <-; done].
  eapply on_node_same; [|exact E]. intros x. cbv beta. rewrite set_weight_key. done.
Qed.
Lemma update_pso_inv w r1 r2 k ts s s' : inv k ts s -> update_pso O w r1 r2 s = Some s' -> inv k ts s'.
Proof.
  intros H E. unfold update_pso in E. bnd E g1 E1. eapply reset_flags_inv; [|exact E]. apply inv_graph; [done|]. eapply for_loop_same; [|exact E1].
  intros x g g' E0. cbn beta in E0. bnd E0 r E2. bnd E0 w_ E3. bnd E0 nodes E4. eapply for_loop_same; [|exact E0]. intros y h h' Ey. cbn beta in Ey. bnd Ey row E5.
  eapply each_same; [|exact Ey]. intros. by eapply pso_step_same.
Qed.

Lemma run_call_inv k ts c s s' : inv k ts s -> run_call O c s = Some s' -> inv k ts s'.
Proof.
  intros H E. destruct c; cbn [run_call] in E.
  1-4: destruct (build_path_by_inv k ts s _ _ s' H E) as (t & Hf & _ & ->); by apply inv_trails.
  - unfold set_pheromone_to_index in E. destruct (decide _); [by injection E as <-|]. bnd E l El. injection E as <-. apply inv_phers; [done|].
    apply wr_inv in El as [_ ->]. apply insert_length.
  - by eapply update_best_trail_inv.
  - injection E as <-. apply inv_best; [done|]. apply (i_best _ _ _ H).
  - injection E as <-. unfold update_taus. destruct (_ || _); [|done]. by apply inv_taus.
  - unfold update_pheromones in E. bnd E b Eb. bnd E g1 E1. bnd E g2 E2. injection E as <-. apply inv_iter, inv_graph; [done|].
    eapply same_trans; [eapply on_path_edges_same; [|exact E1]; done|eapply each_edge_same; [|exact E2]; auto].
  - unfold update_pheromones_nodes in E. bnd E b Eb. bnd E g1 E1. bnd E g2 E2. injection E as <-. apply inv_iter, inv_graph; [done|].
    eapply same_trans; [eapply on_path_nodes_same; [|exact E1]; done|eapply each_node_same; [|exact E2]; auto].
  - unfold update_pheromones_subnodes in E. destruct (decide _); [done|]. bnd E b Eb. bnd E g1 E1. bnd E g2 E2. injection E as <-. apply inv_iter, inv_graph; [done|].
    eapply same_trans; [eapply on_path_nodes_same; [|exact E1]; intros; unfold sub_deposit; by destruct (decide _)|].
    eapply for_loop_same; [|exact E2]. intros x g g' E. cbn beta in E. bnd E y Ey. eapply on_node_same; [|exact E]. auto.
  - unfold update_pheromones_free in E. bnd E g1 E1. bnd E g2 E2. injection E as <-. apply inv_iter, inv_graph; [done|].
    eapply same_trans; [|eapply each_edge_same; [|exact E2]; auto]. eapply for_loop_same; [|exact E1]. intros x g g' E. cbn beta in E. bnd E y Ey. bnd E z Ez.
    eapply on_path_edges_same; [|exact E]. done.
  - unfold update_pheromones_best in E. bnd E b Eb. destruct b; [|by injection E as <-]. bnd E g1 E1. bnd E g2 E2. injection E as <-. apply inv_graph; [done|].
    eapply same_trans; [eapply on_path_edges_same; [|exact E1]; done|eapply each_edge_same; [|exact E2]; auto].
  - unfold update_pheromones_best_nodes in E. bnd E b Eb. destruct b; [|by injection E as <-]. bnd E g1 E1. bnd E g2 E2. injection E as <-. apply inv_graph; [done|].
    eapply same_trans; [eapply on_path_nodes_same; [|exact E1]; done|eapply each_node_same; [|exact E2]; auto].
  - by eapply recompute_inv.
  - by eapply recompute_nodes_inv.
  - destruct (recompute_if_stagnant O threshold delta s) as [[s1 x]|] eqn:E1; [|done]. cbn in E. injection E as <-. unfold recompute_if_stagnant in E1.
    bnd E1 y Ey. bnd E1 s2 E2. injection E1 as <- _. destruct (n_lt O y threshold); [by eapply recompute_inv|by injection E2 as <-].
  - destruct (recompute_if_stagnant_nodes O threshold delta s) as [[s1 x]|] eqn:E1; [|done]. cbn in E. injection E as <-. unfold recompute_if_stagnant_nodes in E1.
    bnd E1 y Ey. bnd E1 s2 E2. injection E1 as <- _. destruct (n_lt O y threshold); [by eapply recompute_nodes_inv|by injection E2 as <-].
  - unfold pso_function in E. bnd E g1 E1. injection E as <-. apply inv_graph; [done|]. eapply each_same; [|exact E1]. intros x g g' E. cbn beta in E. bnd E n En.
    destruct (is_weight _); [|by injection E as <-]. bnd E phs Ep. eapply on_node_same; [|exact E]. done.
  - unfold pso_function_nodes in E. bnd E g1 E1. injection E as <-. apply inv_graph; [done|]. eapply each_node_same; [|exact E1]. intros n. cbn beta. by destruct (is_weight _).
  - unfold best_personal in E. bnd E g1 E1. injection E as <-. apply inv_graph; [done|]. eapply each_node_same; [|exact E1]. intros n. cbn beta. by destruct (_ && _).
  - by eapply best_global_by_inv.
  - by eapply best_global_by_inv.
  - by eapply update_pso_inv.
  - by eapply reset_flags_inv.
  - injection E as <-. apply inv_graph; [done|]. split; [|done]. cbn [g_nodes]. apply list_eq. intros i. rewrite !list_lookup_fmap, list_lookup_imap.
    destruct (g_nodes (s_graph s) !! i); [|done]. cbn. by rewrite set_weight_key.
Qed.
Lemma reached_inv k s : setup_ok O k -> reached O k s -> exists ts, inv k ts s.
Proof.
  intros Hk (junk & rnd & cs & s0 & E0 & E). destruct (inv_init junk rnd k s0 Hk E0) as [ts H]. exists ts. clear E0. revert s0 H E.
  induction cs as [|c cs IH]; intros s0 H E; cbn in E; [by injection E as <-|]. destruct (run_call O c s0) as [s1|] eqn:E1; [|done]. cbn in E.
  eapply IH; [|exact E]. by eapply run_call_inv.
Qed.
End same.
