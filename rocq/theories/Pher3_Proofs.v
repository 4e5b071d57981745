(** A healthy search stays healthy, and none of its calls fails. *)
From Coq Require Import Reals Lra.
From Verif Require Import BaseLemmas Aco_Spec Aco_Proofs Aco2_Proofs Aco3_Proofs Aco4_Proofs Aco5_Proofs Aco6_Proofs Aco8_Proofs Aco9_Proofs Pher_Spec Pher_Proofs Pher2_Proofs.
Open Scope R_scope.

Lemma Forall_imap' {A B} (f : nat -> A -> B) (P : A -> Prop) (Q : B -> Prop) l : Forall P l -> (forall i x, P x -> Q (f i x)) -> Forall Q (imap f l).
Proof.
  intros H Hf. apply list.Forall_forall. intros y Hy. apply elem_of_list_lookup in Hy as [i Hi]. rewrite list_lookup_imap in Hi. destruct (l !! i) as [x|] eqn:Ex; [|done].
  cbn in Hi. injection Hi as <-. apply Hf. rewrite list.Forall_forall in H. apply H. by eapply elem_of_list_lookup_2.
Qed.
Lemma imap_plain {A B} (f : A -> B) l : imap (fun _ y => f y) l = f <$> l.
Proof. apply list_eq. intros i. rewrite list_lookup_imap, list_lookup_fmap. done. Qed.
Lemma recompute_ok k ts (s : aco R) d : inv real_num k ts s -> recompute_pheromones real_num d s = Some (set_edge_phers (fun _ x => bound real_num s (x + d * (s_max s - x))) s).
Proof.
  intros H. unfold recompute_pheromones. rewrite each_all_edges by (rewrite (inv_elen _ _ _ _ H); apply (i_edges _ _ _ _ H)). cbn [mbind option_bind].
  unfold set_edge_phers. by rewrite (imap_plain (fun y => set_epher (bound real_num s (g_pher y + d * (s_max s - g_pher y))) y)).
Qed.
Lemma recompute_nodes_ok k ts (s : aco R) d : inv real_num k ts s -> recompute_pheromones_nodes real_num d s = Some (set_node_phers (fun _ x => x + d * (s_max s - x)) s).
Proof.
  intros H. unfold recompute_pheromones_nodes. rewrite each_all_nodes by (rewrite (inv_len _ _ _ _ H); apply (i_nodes _ _ _ _ H)). cbn [mbind option_bind].
  unfold set_node_phers. by rewrite (imap_plain (fun n => set_pher (o_pher n + d * (s_max s - o_pher n)) n)).
Qed.
Lemma healthy_edges (s : aco R) f : healthy s -> (forall e x, 0 < x -> 0 < f e x) -> healthy (set_edge_phers f s).
Proof. intros [] Hf. split; try done. cbn. eapply Forall_imap'; [exact h_edges|]. intros i y. cbn. apply Hf. Qed.
Lemma healthy_nodes (s : aco R) f : healthy s -> (forall e x, 0 < x -> 0 < f e x) -> healthy (set_node_phers f s).
Proof. intros [] Hf. split; try done; cbn. - eapply Forall_imap'; [exact h_nodes|]. intros i y. cbn. apply Hf. - unfold unmarked. cbn. by eapply Forall_imap'. Qed.
Lemma bound_pos (s : aco R) x : 0 < s_max s -> 0 < x -> 0 < bound real_num s x.
Proof. intros H Hx. unfold bound. rewrite !n_ltb. repeat case_bool_decide; lra. Qed.
Lemma fade_pos (s : aco R) x : 0 < s_p s -> 0 < s_max s -> 0 < x -> 0 < fade real_num s x.
Proof. intros Hp H Hx. unfold fade. rewrite !n_ltb. cbn [n_mul real_num]. assert (0 < x * s_p s) by (by apply Rmult_lt_0_compat). repeat case_bool_decide; lra. Qed.
Lemma fade_low_pos (s : aco R) x : 0 < s_p s -> 0 < x -> 0 < fade_low real_num s x.
Proof. intros Hp Hx. unfold fade_low. rewrite !n_ltb. cbn [n_mul real_num]. assert (0 < x * s_p s) by (by apply Rmult_lt_0_compat). repeat case_bool_decide; lra. Qed.
Lemma mix_pos x d m : 0 < x -> 0 < m -> 0 <= d <= 1 -> 0 < x + d * (m - x).
Proof.
  intros Hx Hm Hd. replace (x + d * (m - x)) with ((1 - d) * x + d * m) by ring. destruct (Req_dec d 0) as [->|Hd0]; [lra|].
  assert (0 < d * m) by (apply Rmult_lt_0_compat; lra). assert (0 <= (1 - d) * x) by (apply Rmult_le_pos; lra). lra.
Qed.
Lemma foldl_add_pos l x : 0 < x -> Forall (fun y => 0 <= y) l -> 0 < foldl (n_add real_num) x l.
Proof. intros Hx H. revert x Hx. induction H as [|y l Hy _ IH]; intros x Hx; cbn; [done|]. apply IH. cbn. lra. Qed.
Lemma deposits_nonneg (s : aco R) e : Forall (fun x => 0 <= x) (s_phers s) -> Forall (fun x => 0 <= x) (deposits s e).
Proof.
  intros H. unfold deposits. apply list.Forall_forall. intros x Hx. apply elem_of_list_fmap in Hx as ([t y] & -> & Hp). apply elem_of_list_filter in Hp as [_ Hp].
  apply elem_of_zip_r in Hp. rewrite list.Forall_forall in H. by apply H.
Qed.
Lemma some_leader k ts (s : aco R) : inv real_num k ts s -> (0 < k_ants k)%nat -> Forall (fun x => 0 <= x) (s_phers s) -> exists b, best_ant real_num s = Some b /\ 0 <= b.2.
Proof.
  intros H Ha Hp. pose proof (i_ants _ _ _ _ H) as L1. pose proof (i_ants' _ _ _ _ H) as L2. destruct (choose_best_lt real_num (s_phers s)) as (i & E & Hi); [intros Z; rewrite Z in L2; cbn in L2; lia|].
  unfold best_ant. rewrite E. cbn [mbind option_bind]. destruct (lookup_lt_is_Some_2 (s_trails s) i ltac:(lia)) as [t Et]. destruct (lookup_lt_is_Some_2 _ _ Hi) as [x Ex].
  unfold rd. rewrite Et. cbn [mbind option_bind]. rewrite Ex. eexists. split; [done|]. cbn. rewrite list.Forall_forall in Hp. apply Hp. by eapply elem_of_list_lookup_2.
Qed.
Lemma unmarked_reset k ts (s : aco R) : inv real_num k ts s -> exists g, reset_flags s = Some (with_graph s g) /\ (fun n => o_pher n) <$> g_nodes g = (fun n => o_pher n) <$> g_nodes (s_graph s) /\
  g_pher <$> g_edges g = g_pher <$> g_edges (s_graph s) /\ Forall (fun n => o_flag n = false) (g_nodes g).
Proof.
  intros H. unfold reset_flags. rewrite each_all_nodes by (rewrite (inv_len _ _ _ _ H); apply (i_nodes _ _ _ _ H)). cbn [mbind option_bind].
  rewrite each_all_edges by (cbn [g_edges]; rewrite (inv_elen _ _ _ _ H); apply (i_edges _ _ _ _ H)). cbn [mbind option_bind]. eexists. split; [done|]. cbn [g_nodes g_edges].
  split; [by rewrite <- list_fmap_compose|]. split; [by rewrite <- list_fmap_compose|]. apply list.Forall_fmap. by apply list.Forall_true.
Qed.
Lemma stagnation_total k ts (s : aco R) : inv real_num k ts s -> (exists phs, get_stagnation real_num s = Some (stagnation_of real_num s phs) /\ phs ≡ₚ g_pher <$> g_edges (s_graph s)) /\
  (exists phs, get_stagnation_nodes real_num s = Some (stagnation_of real_num s phs) /\ phs ≡ₚ o_pher <$> g_nodes (s_graph s)).
Proof.
  intros H. assert (HP : forall (A : Type) (f : A -> R) (v : list A) l, l ≡ₚ seq 0 (length v) -> exists phs, mapM (fun e => y ← rd v e; Some (f y)) l = Some phs /\ phs ≡ₚ f <$> v).
  { intros A f v l El. assert (Hm : exists phs, mapM (fun e => y ← rd v e; Some (f y)) l = Some phs).
    { apply Aco8_Proofs.mapM_is_Some. intros e He. rewrite El in He. apply elem_of_seq in He. destruct (lookup_lt_is_Some_2 v e ltac:(lia)) as [y Ey]. unfold rd. rewrite Ey. by eexists. }
    destruct Hm as [phs Em]. exists phs. split; [done|]. apply mapM_Some in Em.
    assert (Ephs : phs = (fun e => match v !! e with Some y => f y | None => 0 end) <$> l).
    { clear El. induction Em as [|e x l phs E _ IH]; [done|]. rewrite fmap_cons, <- IH. f_equal. cbn in E. unfold rd in E. destruct (v !! e); [|done]. by injection E as <-. }
    rewrite Ephs, El. clear. apply eq_reflexivity || idtac. assert (E : (fun e => match v !! e with Some y => f y | None => 0 end) <$> seq 0 (length v) = f <$> v); [|by rewrite E].
    apply list_eq. intros i. rewrite !list_lookup_fmap. destruct (v !! i) as [y|] eqn:Ey.
    - rewrite lookup_seq_lt by (by eapply lookup_lt_Some). cbn. by rewrite Ey.
    - rewrite lookup_seq_ge by (by apply lookup_ge_None). done. }
  split.
  - unfold get_stagnation. destruct (HP _ g_pher (g_edges (s_graph s)) (s_edges s)) as (phs & -> & E); [rewrite (inv_elen _ _ _ _ H); apply (i_edges _ _ _ _ H)|]. cbn [mbind option_bind]. eauto.
  - unfold get_stagnation_nodes. destruct (HP _ o_pher (g_nodes (s_graph s)) (s_nodes s)) as (phs & -> & E); [rewrite (inv_len _ _ _ _ H); apply (i_nodes _ _ _ _ H)|]. cbn [mbind option_bind]. eauto.
Qed.
Lemma healthy_graph (s : aco R) g : healthy s -> o_pher <$> g_nodes g = o_pher <$> g_nodes (s_graph s) -> g_pher <$> g_edges g = g_pher <$> g_edges (s_graph s) ->
  Forall (fun n => o_flag n = false) (g_nodes g) -> healthy (with_graph s g).
Proof.
  intros [] A B C. split; try done; cbn.
  - assert (Q : Forall (fun x => 0 < x) (g_pher <$> g_edges g)) by (rewrite B; apply list.Forall_fmap; assumption). exact (proj1 (list.Forall_fmap _ _ _) Q).
  - assert (Q : Forall (fun x => 0 < x) (o_pher <$> g_nodes g)) by (rewrite A; apply list.Forall_fmap; assumption). exact (proj1 (list.Forall_fmap _ _ _) Q).
Qed.
Lemma taus_healthy k (s : aco R) : setup_ok real_num k -> k_p k < 1 -> s_p s = k_p k -> healthy s -> 0 < s_best_pher s -> healthy (update_taus real_num s).
Proof.
  intros Hk Hp Ep H Hb. assert (Ho := taus_order s (h_order s H)). destruct H. unfold update_taus in *. destruct (_ || _); [|by split]. split; try done.
  cbn [with_taus s_max n_flt n_mul n_div n_sub n_z real_num]. rewrite Ep. apply Rmult_lt_0_compat; [|done]. apply Rdiv_lt_0_compat; lra.
Qed.
Lemma good_step k (s : aco R) c : setup_ok real_num k -> 0 < k_p k < 1 -> reached real_num k s -> healthy s -> good k c s ->
  exists s', run_call real_num c s = Some s' /\ reached real_num k s' /\ healthy s'.
Proof.
  intros Hk Hp Hr HS Hg. cut (exists s', run_call real_num c s = Some s' /\ healthy s'); [intros (s' & E & Hs'); exists s'; split; [done|]; split; [by eapply reached_step|done]|].
  destruct (reached_clear real_num k s Hk Hr) as (ts & H & Hc). assert (Hw := inv_wf _ _ _ _ H). assert (Hadj := i_adj _ _ _ _ H). assert (Ep := i_p _ _ _ _ H). assert (Hp' : 0 < s_p s) by (rewrite Ep; lra).
  pose proof (i_ants _ _ _ _ H) as L1. pose proof (i_ants' _ _ _ _ H) as L2. pose proof (i_every _ _ _ _ H) as Le.
  assert (HC : forall rules ant, (ant < k_ants k)%nat -> (forall m, certain real_num (s_graph s) (rules m)) -> exists s', build_path_by real_num rules s ant = Some s' /\ healthy s').
  { intros rules ant Ha Hcc. destruct (walk_certain0 real_num k ts s rules H Hcc) as (l & E & _). unfold build_path_by. rewrite E. cbn [mbind option_bind].
    rewrite wr_Some by (by rewrite L1). eexists. split; [done|]. by destruct HS. }
  destruct c; cbn [good] in Hg; try done; cbn [run_call].
  - destruct Hg as [Ha Hrnd]. apply HC; [done|]. intros m. apply (walk_R_certain _ ts (rnd m) Hadj Hw (Hrnd m)). apply (h_edges _ HS).
  - destruct Hg as [Ha Hrnd]. apply HC; [done|]. intros m. apply (walk_R_certain _ ts (rnd m) Hadj Hw (Hrnd m)). apply (h_nodes _ HS).
  - destruct Hg as [Ha Hrnd]. apply HC; [done|]. intros m. destruct (decide _); [|by apply (best_certain _ _ ts)]. apply (walk_R_certain _ ts (rnd m) Hadj Hw (Hrnd m)). apply (h_nodes _ HS).
  - apply HC; [done|]. intros m. by apply (best_certain _ _ ts).
  - destruct Hg as [Ha Hx]. unfold set_pheromone_to_index. rewrite decide_False by lia. rewrite wr_Some by lia. eexists. split; [done|]. destruct HS. split; try done. cbn. by apply Forall_insert.
  - destruct (remember_ok k ts s H) as (b & x & -> & Hx & _). eexists. split; [done|]. destruct HS. split; try done. cbn. lra.
  - eexists. split; [done|]. destruct HS. by split.
  - eexists. split; [done|]. eapply taus_healthy; try done. lra.
  - destruct (some_leader k ts s H Hg (h_credits _ HS)) as (b & Eb & Hb). rewrite (update_pheromones_ok real_num k ts s b H Hc Eb). eexists. split; [done|].
    unfold reward_of. assert (HE : healthy (set_edge_phers (fun e old => if edge_on s b.1 e then bound real_num s (n_add real_num (n_mul real_num old (s_p s)) b.2) else fade real_num s old) s)); [|by destruct HE; split].
    apply healthy_edges; [done|]. intros e x Hx. assert (0 < x * s_p s) by (by apply Rmult_lt_0_compat). destruct (edge_on s b.1 e); [apply bound_pos|apply fade_pos]; try done; try apply (h_max _ HS). cbn. lra.
  - destruct (some_leader k ts s H Hg (h_credits _ HS)) as (b & Eb & Hb). rewrite (update_pheromones_nodes_ok real_num k ts s b H (h_unmarked _ HS) Eb). eexists. split; [done|].
    unfold reward_nodes_of. assert (HE : healthy (set_node_phers (fun e old => if node_on s b.1 e then bound real_num s (n_add real_num (n_mul real_num old (s_p s)) b.2) else fade real_num s old) s)); [|by destruct HE; split].
    apply healthy_nodes; [done|]. intros e x Hx. assert (0 < x * s_p s) by (by apply Rmult_lt_0_compat). destruct (node_on s b.1 e); [apply bound_pos|apply fade_pos]; try done; try apply (h_max _ HS). cbn. lra.
  - rewrite (update_pheromones_free_ok real_num k ts s H Hc). eexists. split; [done|]. unfold reward_all_of.
    assert (HE : healthy (set_edge_phers (fun e old => foldl (n_add real_num) (n_mul real_num old (s_p s)) (deposits s e)) s)); [|by destruct HE; split]. apply healthy_edges; [done|].
    intros e x Hx. apply foldl_add_pos; [by apply Rmult_lt_0_compat|]. apply deposits_nonneg, (h_credits _ HS).
  - rewrite (update_pheromones_best_ok real_num k ts s H Hc) by (by rewrite Le). eexists. split; [done|]. destruct (_ =? 0)%nat; [|done]. apply healthy_edges; [done|].
    intros e x Hx. assert (0 < x * s_p s) by (by apply Rmult_lt_0_compat). pose proof (h_best _ HS). destruct (edge_on s _ e); [apply bound_pos|apply fade_low_pos]; try done; try apply (h_max _ HS). cbn. lra.
  - rewrite (update_pheromones_best_nodes_ok real_num k ts s H (h_unmarked _ HS)) by (by rewrite Le). eexists. split; [done|]. destruct (_ =? 0)%nat; [|done]. apply healthy_nodes; [done|].
    intros e x Hx. assert (0 < x * s_p s) by (by apply Rmult_lt_0_compat). pose proof (h_best _ HS). destruct (node_on s _ e); [apply bound_pos|apply fade_low_pos]; try done; try apply (h_max _ HS). cbn. lra.
  - rewrite (recompute_ok k ts) by done. eexists. split; [done|]. apply healthy_edges; [done|]. intros e x Hx. apply bound_pos; [apply (h_max _ HS)|]. apply mix_pos; [done|apply (h_max _ HS)|done].
  - rewrite (recompute_nodes_ok k ts) by done. eexists. split; [done|]. apply healthy_nodes; [done|]. intros e x Hx. apply mix_pos; [done|apply (h_max _ HS)|done].
  - destruct (stagnation_total k ts s H) as [(phs & Est & _) _]. unfold recompute_if_stagnant. rewrite Est. cbn [mbind option_bind]. destruct (n_lt _ _ _).
    + rewrite (recompute_ok k ts) by done. eexists. split; [done|]. apply healthy_edges; [done|]. intros e x Hx. apply bound_pos; [apply (h_max _ HS)|]. apply mix_pos; [done|apply (h_max _ HS)|done].
    + by eexists.
  - destruct (stagnation_total k ts s H) as [_ (phs & Est & _)]. unfold recompute_if_stagnant_nodes. rewrite Est. cbn [mbind option_bind]. destruct (n_lt _ _ _).
    + rewrite (recompute_nodes_ok k ts) by done. eexists. split; [done|]. apply healthy_nodes; [done|]. intros e x Hx. apply mix_pos; [done|apply (h_max _ HS)|done].
    + by eexists.
  - destruct (unmarked_reset k ts s H) as (g & -> & A & B & C). eexists. split; [done|]. by apply healthy_graph.
  - eexists. split; [done|]. unfold move. apply healthy_graph; [done| |done|].
    + cbn. apply list_eq. intros i. rewrite !list_lookup_fmap, list_lookup_imap. by destruct (_ !! i).
    + cbn. eapply Forall_imap'; [apply (h_unmarked _ HS)|]. done.
Qed.
