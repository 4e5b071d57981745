(** The pheromone updates of the ant-colony search, in the terms of Pher_Spec. *)
From Verif Require Import BaseLemmas Aco_Spec Aco_Proofs Aco2_Proofs Aco3_Proofs Aco4_Proofs Aco5_Proofs Aco6_Proofs Aco8_Proofs Pher_Spec.
Open Scope nat_scope.
Ltac bnd H x E := match type of H with mbind _ ?o = _ => destruct o as [x|] eqn:E; [|done] end; cbn [mbind option_bind] in H.

Section pher.
Context {F : Type} (O : num F).
Implicit Types (g : graph F) (s : aco F).

Lemma same_node g g' u n : same g g' -> g_nodes g !! u = Some n -> exists n', g_nodes g' !! u = Some n' /\ o_outputs n' = o_outputs n.
Proof.
  intros [A _] En. apply (f_equal (fun l => l !! u)) in A. rewrite !list_lookup_fmap, En in A. destruct (g_nodes g' !! u) as [n'|]; [|done]. cbn in A.
  unfold node_key in A. injection A as A1 A2 A3. eauto.
Qed.
Lemma same_edge g g' e y : same g g' -> g_edges g !! e = Some y -> exists y', g_edges g' !! e = Some y' /\ g_out y' = g_out y.
Proof.
  intros [_ A] En. apply (f_equal (fun l => l !! e)) in A. rewrite !list_lookup_fmap, En in A. destruct (g_edges g' !! e) as [y'|]; [|done]. cbn in A.
  unfold triple in A. injection A as A1 A2 A3. eauto.
Qed.
Lemma trail_of_same g g' : same g g' -> forall t x l, trail_of g x t = Some l -> trail_of g' x t = Some l.
Proof.
  intros Hs. induction t as [|i t IH]; intros x l E; cbn [trail_of] in *; [done|]. bnd E n En. bnd E e Ee. bnd E y Ey. bnd E l' El. injection E as <-.
  destruct (same_node _ _ _ _ Hs En) as (n' & -> & Eo). cbn [mbind option_bind]. rewrite Eo, Ee. cbn [mbind option_bind].
  destruct (same_edge _ _ _ _ Hs Ey) as (y' & -> & Eo'). cbn [mbind option_bind]. rewrite Eo', (IH _ _ El). done.
Qed.
Lemma steps_trail g ts : adj g ts -> Aco_Proofs.wf (length (g_nodes g)) ts -> forall t x ls, x < length (g_nodes g) -> steps ts x t = Some ls ->
  exists l, trail_of g x t = Some l /\ l.*2 = (fun t : link => t.1.2) <$> ls /\
    Forall (fun p => p.2 < length (g_nodes g) /\ exists y, g_edges g !! p.1 = Some y /\ g_out y = p.2) l.
Proof.
  intros Ha Hw. induction t as [|i t IH]; intros x ls Hx E; cbn [steps trail_of] in *; [injection E as <-; by exists []|]. bnd E l0 El. bnd E ls' E'. injection E as <-.
  destruct (lookup_lt_is_Some_2 _ _ Hx) as [n En]. rewrite En. cbn [mbind option_bind]. pose proof (output_lookup g ts x n i Ha En) as Ho. rewrite El in Ho.
  destruct Ho as (e & y & Ee & Ey & Et). rewrite Ee. cbn [mbind option_bind]. rewrite Ey. cbn [mbind option_bind]. assert (g_out y = l0.1.2) as Eo by (by rewrite <- Et).
  assert (Hlt : l0.1.2 < length (g_nodes g)).
  { unfold Aco_Proofs.wf in Hw. rewrite list.Forall_forall in Hw. apply Hw. apply elem_of_list_lookup_2 in El. unfold from_ in El. by apply elem_of_list_filter in El as [_ ?]. }
  rewrite Eo. destruct (IH _ _ Hlt E') as (l & -> & E2 & E3). cbn [mbind option_bind]. eexists. split; [done|]. split; [by rewrite !fmap_cons, E2|].
  constructor; [|done]. cbn. split; [done|]. eauto.
Qed.
Lemma picks_NoDup (rows : list (nat * list nat)) : NoDup (rows_nodes rows) -> forall vs, Forall2 (fun v r => v ∈ r.2) vs rows -> NoDup vs /\ forall v, v ∈ vs -> v ∈ rows_nodes rows.
Proof.
  induction rows as [|r rows IH]; intros HN vs H; inversion H as [|v ? vs' ? H1 H2]; subst; [split; [constructor|done]|].
  unfold rows_nodes in HN. rewrite fmap_cons in HN. cbn in HN. apply NoDup_app in HN as (N1 & N2 & N3). destruct (IH N3 vs' H2) as [A B]. split.
  - constructor; [|done]. intros Hv. apply (N2 v H1). by apply B.
  - intros u Hu. unfold rows_nodes. rewrite fmap_cons. cbn. apply elem_of_app. apply elem_of_cons in Hu as [->|Hu]; [by left|right; by apply B].
Qed.
(** a trail visits different edges and nodes *)
Lemma trail_ok_of k ts s t : inv O k ts s -> trail_ok k ts t -> exists l, trail_of (s_graph s) 0 t = Some l /\ NoDup l.*1 /\ NoDup l.*2 /\
  Forall (fun p => p.2 < length (g_nodes (s_graph s)) /\ exists y, g_edges (s_graph s) !! p.1 = Some y /\ g_out y = p.2) l.
Proof.
  intros H [->|[L [ls Els]]]; [exists []; repeat split; constructor|]. pose proof (inv_by_rows _ _ _ _ H) as Hby.
  destruct (steps_rows _ _ _ Hby t 0 (0, [0]) 0 ls eq_refl ltac:(left) Els) as [A _]. rewrite L in A. cbn [rows_ length drop] in A. rewrite Nat.sub_succ, Nat.sub_0_r, take_ge in A by done.
  assert (Hlen : 0 < length (g_nodes (s_graph s))) by (rewrite (inv_len _ _ _ _ H), bodies_length; lia).
  destruct (steps_trail (s_graph s) ts (i_adj _ _ _ _ H) (inv_wf _ _ _ _ H) t 0 ls Hlen Els) as (l & E & E2 & E3). exists l. split; [done|].
  assert (N2 : NoDup l.*2).
  { rewrite E2. pose proof (lay_NoDup _ _ _ (i_lay _ _ _ _ H)) as HN. unfold rows_, rows_nodes in HN. rewrite fmap_cons in HN. cbn [mjoin list_join] in HN. apply NoDup_app in HN as (_ & _ & HN).
    apply (picks_NoDup _ HN). apply Forall2_fmap_l. eapply Forall2_impl; [exact A|]. intros x r [? _]. done. }
  split; [|done]. clear -N2 E3. induction l as [|p l IH]; [constructor|]. rewrite fmap_cons in *. apply list.Forall_cons in E3 as [[_ (y & Ey & Eo)] E3]. apply list.NoDup_cons in N2 as [M1 M2].
  constructor; [|by apply IH]. intros Hp. apply elem_of_list_fmap in Hp as (q & Eq & Hq). apply M1. apply elem_of_list_fmap. exists q. split; [|done].
  rewrite list.Forall_forall in E3. destruct (E3 q Hq) as (_ & y' & Ey' & Eo'). rewrite <- Eq, Ey in Ey'. injection Ey' as <-. congruence.
Qed.

(** walking along a trail changes its edges and its nodes, each once *)
Lemma on_edge_eq (f : edge F -> edge F) e g y : g_edges g !! e = Some y -> on_edge f e g = Some (Graph (g_nodes g) (<[e := f y]> (g_edges g))).
Proof. intros E. unfold on_edge, rd. rewrite E. cbn [mbind option_bind]. rewrite wr_Some by (by eapply lookup_lt_Some). done. Qed.
Lemma on_node_eq (f : node F -> node F) e g y : g_nodes g !! e = Some y -> on_node f e g = Some (Graph (<[e := f y]> (g_nodes g)) (g_edges g)).
Proof. intros E. unfold on_node, rd. rewrite E. cbn [mbind option_bind]. rewrite wr_Some by (by eapply lookup_lt_Some). done. Qed.
Lemma imap_insert {A} (f : A -> A) (P : nat -> Prop) `{forall i, Decision (P i)} (l : list A) e y (Q : nat -> Prop) `{forall i, Decision (Q i)} : l !! e = Some y -> ~ P e ->
  (forall i, Q i <-> i = e \/ P i) -> imap (fun i x => if decide (P i) then f x else x) (<[e := f y]> l) = imap (fun i x => if decide (Q i) then f x else x) l.
Proof.
  intros E He HQ. apply list_eq. intros i. rewrite !list_lookup_imap. destruct (decide (i = e)) as [->|Hi].
  - rewrite list_lookup_insert by (by eapply lookup_lt_Some). rewrite E. cbn. rewrite decide_False by done. rewrite decide_True by (apply HQ; by left). done.
  - rewrite list_lookup_insert_ne by done. destruct (l !! i); [|done]. cbn. destruct (decide (P i)) as [Hp|Hp].
    + rewrite decide_True by (apply HQ; by right). done.
    + rewrite decide_False; [done|]. intros HQi. apply HQ in HQi as [?|?]; done.
Qed.
Lemma along_ok (f : edge F -> edge F) (h : node F -> node F) t : (forall y, triple (f y) = triple y) -> (forall n, node_key (h n) = node_key n) ->
  forall k x g l, trail_of g x t = Some l -> NoDup l.*1 -> NoDup l.*2 -> Forall (fun p => p.2 < length (g_nodes g)) l ->
  along f (fun _ => h) k x t g = Some (Graph (imap (fun u n => if decide (u ∈ l.*2) then h n else n) (g_nodes g)) (imap (fun e y => if decide (e ∈ l.*1) then f y else y) (g_edges g))).
Proof.
  intros Hf Hh. induction t as [|i t IH]; intros k x g l E N1 N2 Hl; cbn [trail_of along] in *.
  - injection E as <-. destruct g as [ns es]. cbn [g_nodes g_edges fmap list_fmap]. f_equal. f_equal; symmetry; (etrans; [|apply list_fmap_id]); rewrite <- imap_const; apply imap_ext; intros j z _; by rewrite decide_False by (apply not_elem_of_nil).
  - bnd E n En. bnd E e Ee. bnd E y Ey. bnd E l' El. injection E as <-. rewrite !fmap_cons in *. apply list.NoDup_cons in N1 as [M1 N1]. apply list.NoDup_cons in N2 as [M2 N2].
    apply list.Forall_cons in Hl as [Hv Hl]. cbn [fst snd] in *. unfold rd. rewrite En. cbn [mbind option_bind]. rewrite decide_False by (intros Z; rewrite Z in Ee; done).
    rewrite Ee. cbn [mbind option_bind]. rewrite Ey. cbn [mbind option_bind]. rewrite (on_edge_eq _ _ _ _ Ey). cbn [mbind option_bind].
    destruct (lookup_lt_is_Some_2 _ _ Hv) as [m Em]. rewrite (on_node_eq h _ (Graph (g_nodes g) (<[e:=f y]> (g_edges g))) m) by done. cbn [mbind option_bind g_nodes g_edges].
    set (g' := Graph (<[g_out y := h m]> (g_nodes g)) (<[e := f y]> (g_edges g))).
    assert (Hs : same g g').
    { split; cbn [g' g_nodes g_edges]; rewrite list_fmap_insert; (rewrite Hf || rewrite Hh); apply list_insert_id; rewrite list_lookup_fmap; (rewrite Em || rewrite Ey); done. }
    rewrite (IH (S k) (g_out y) g' l'); [|by eapply trail_of_same|done|done|].
    + cbn [g' g_nodes g_edges]. f_equal. f_equal.
      * apply imap_insert; [done|done|]. intros u. apply elem_of_cons.
      * apply imap_insert; [done|done|]. intros u. apply elem_of_cons.
    + cbn [g' g_nodes]. by rewrite insert_length.
Qed.
Lemma imap_id {A} (f : nat -> A -> A) (l : list A) : (forall i x, l !! i = Some x -> f i x = x) -> imap f l = l.
Proof. intros H. apply list_eq. intros i. rewrite list_lookup_imap. destruct (l !! i) eqn:E; [|done]. cbn. f_equal. by apply H. Qed.
Lemma on_path_edges_ok f k ts s t : inv O k ts s -> trail_ok k ts t -> (forall y, triple (f y) = triple y) ->
  on_path_edges f t (s_graph s) = Some (Graph (g_nodes (s_graph s)) (imap (fun e y => if edge_on s t e then f y else y) (g_edges (s_graph s)))).
Proof.
  intros H Ht Hf. destruct (trail_ok_of k ts s t H Ht) as (l & E & N1 & N2 & Hl). unfold on_path_edges. rewrite (along_ok f (fun n => n) t Hf) with (l := l); [|done|done|done|done|].
  - f_equal. f_equal.
    + apply imap_id. intros u n _. by destruct (decide _).
    + apply imap_ext. intros e y _. unfold edge_on. rewrite E. by repeat case_decide || case_bool_decide.
  - eapply list.Forall_impl; [exact Hl|]. by intros p [? _].
Qed.
Lemma on_path_nodes_ok h k ts s t : inv O k ts s -> trail_ok k ts t -> (forall y, node_key (h y) = node_key y) ->
  on_path_nodes (fun _ => h) t (s_graph s) = Some (Graph (imap (fun e y => if node_on s t e then h y else y) (g_nodes (s_graph s))) (g_edges (s_graph s))).
Proof.
  intros H Ht Hf. destruct (trail_ok_of k ts s t H Ht) as (l & E & N1 & N2 & Hl). unfold on_path_nodes. rewrite (along_ok (fun e => e) h t) with (l := l); [|done|done|done|done|done|].
  - f_equal. f_equal.
    + apply imap_ext. intros e y _. unfold node_on. rewrite E. by repeat case_decide || case_bool_decide.
    + apply imap_id. intros u n _. by destruct (decide _).
  - eapply list.Forall_impl; [exact Hl|]. by intros p [? _].
Qed.

(** no edge is marked between calls *)
Definition clear_edges g : Prop := Forall (fun y => g_flag y = false) (g_edges g).
Lemma edge_on_same s s' t e : same (s_graph s) (s_graph s') -> (exists l, trail_of (s_graph s) 0 t = Some l) -> edge_on s' t e = edge_on s t e.
Proof. intros Hs [l E]. unfold edge_on. rewrite E, (trail_of_same _ _ Hs _ _ _ E). done. Qed.
Lemma best_ant_inv k ts s b : inv O k ts s -> best_ant O s = Some b -> trail_ok k ts b.1 /\ exists a, leads O s a b.1 b.2.
Proof.
  intros H E. unfold best_ant in E. bnd E i Ei. bnd E t Et. bnd E x Ex. injection E as <-. split; [|by exists i].
  pose proof (i_trails _ _ _ _ H) as Hf. rewrite list.Forall_forall in Hf. apply Hf. by eapply elem_of_list_lookup_2.
Qed.
Lemma leads_best s a t x : leads O s a t x -> best_ant O s = Some (t, x).
Proof. intros (E1 & E2 & E3). unfold best_ant. rewrite E3. cbn [mbind option_bind]. unfold rd. rewrite E1. cbn [mbind option_bind]. rewrite E2. done. Qed.

Lemma reward_edges (f : edge F -> edge F) (v w : F -> F) k ts s t : inv O k ts s -> clear_edges (s_graph s) -> trail_ok k ts t ->
  (forall y, f y = set_eflag true (set_epher (v (g_pher y)) y)) ->
  (g ← on_path_edges f t (s_graph s); each (on_edge (fade_edge w)) (s_edges s) g) =
  Some (s_graph (set_edge_phers (fun e x => if edge_on s t e then v x else w x) s)).
Proof.
  intros H Hc Ht Hf. rewrite (on_path_edges_ok _ k ts s t H Ht) by (intros y; by rewrite Hf). cbn [mbind option_bind].
  rewrite each_all_edges by (cbn [g_edges]; rewrite imap_length, (inv_elen _ _ _ _ H); apply (i_edges _ _ _ _ H)). cbn [g_nodes g_edges].
  cbn [set_edge_phers with_graph s_graph]. do 2 f_equal. apply list_eq. intros i. rewrite list_lookup_fmap, !list_lookup_imap. destruct (g_edges (s_graph s) !! i) as [y|] eqn:Ey; [|done].
  cbn [fmap option_fmap option_map]. f_equal. assert (Fy : g_flag y = false) by (unfold clear_edges in Hc; rewrite list.Forall_forall in Hc; apply Hc; by eapply elem_of_list_lookup_2).
  unfold fade_edge. destruct (edge_on s t i).
  - rewrite Hf. cbn. unfold set_eflag, set_epher. cbn. by rewrite Fy.
  - by rewrite Fy.
Qed.
Lemma reward_nodes (f : node F -> node F) (v w : F -> F) k ts s t : inv O k ts s -> unmarked s -> trail_ok k ts t ->
  (forall y, f y = set_flag true (set_pher (v (o_pher y)) y)) ->
  (g ← on_path_nodes (fun _ => f) t (s_graph s); each (on_node (fade_node w)) (s_nodes s) g) =
  Some (s_graph (set_node_phers (fun e x => if node_on s t e then v x else w x) s)).
Proof.
  intros H Hc Ht Hf. rewrite (on_path_nodes_ok _ k ts s t H Ht) by (intros y; by rewrite Hf). cbn [mbind option_bind].
  rewrite each_all_nodes by (cbn [g_nodes]; rewrite imap_length, (inv_len _ _ _ _ H); apply (i_nodes _ _ _ _ H)). cbn [g_nodes g_edges].
  cbn [set_node_phers with_graph s_graph]. do 2 f_equal. apply list_eq. intros i. rewrite list_lookup_fmap, !list_lookup_imap. destruct (g_nodes (s_graph s) !! i) as [y|] eqn:Ey; [|done].
  cbn [fmap option_fmap option_map]. f_equal. assert (Fy : o_flag y = false) by (unfold unmarked in Hc; rewrite list.Forall_forall in Hc; apply Hc; by eapply elem_of_list_lookup_2).
  unfold fade_node. destruct (node_on s t i).
  - rewrite Hf. cbn. unfold set_flag, set_pher. cbn. by rewrite Fy.
  - by rewrite Fy.
Qed.
Definition reward_of s (t : list nat) (x : F) : aco F :=
  with_iter (set_edge_phers (fun e old => if edge_on s t e then bound O s (n_add O (n_mul O old (s_p s)) x) else fade O s old) s) (S (s_iter s)).
Lemma update_pheromones_ok k ts s b : inv O k ts s -> clear_edges (s_graph s) -> best_ant O s = Some b -> update_pheromones O s = Some (reward_of s b.1 b.2).
Proof.
  intros H Hc Hb. destruct (best_ant_inv _ _ _ _ H Hb) as [Ht _]. unfold update_pheromones. rewrite Hb. cbn [mbind option_bind].
  assert (E := reward_edges (deposit_edge O s b.2) (fun old => bound O s (n_add O (n_mul O old (s_p s)) b.2)) (fade O s) k ts s b.1 H Hc Ht ltac:(done)).
  bnd E g1 E1. cbn [mbind option_bind]. rewrite E. done.
Qed.
Definition reward_nodes_of s (t : list nat) (x : F) : aco F :=
  with_iter (set_node_phers (fun e old => if node_on s t e then bound O s (n_add O (n_mul O old (s_p s)) x) else fade O s old) s) (S (s_iter s)).
Lemma update_pheromones_nodes_ok k ts s b : inv O k ts s -> unmarked s -> best_ant O s = Some b -> update_pheromones_nodes O s = Some (reward_nodes_of s b.1 b.2).
Proof.
  intros H Hc Hb. destruct (best_ant_inv _ _ _ _ H Hb) as [Ht _]. unfold update_pheromones_nodes. rewrite Hb. cbn [mbind option_bind].
  assert (E := reward_nodes (deposit_node O s b.2) (fun old => bound O s (n_add O (n_mul O old (s_p s)) b.2)) (fade O s) k ts s b.1 H Hc Ht ltac:(done)).
  bnd E g1 E1. cbn [mbind option_bind]. rewrite E. done.
Qed.
Definition reward_best_of s : aco F :=
  set_edge_phers (fun e old => if edge_on s (s_best s) e then bound O s (n_add O (n_mul O old (s_p s)) (s_best_pher s)) else fade_low O s old) s.
Lemma update_pheromones_best_ok k ts s : inv O k ts s -> clear_edges (s_graph s) -> s_every s <> 0 ->
  update_pheromones_best O s = Some (if s_iter s mod s_every s =? 0 then reward_best_of s else s).
Proof.
  intros H Hc He. unfold update_pheromones_best, due. rewrite decide_False by done. cbn [mbind option_bind]. destruct (_ =? 0); [|done].
  assert (E := reward_edges (deposit_edge O s (s_best_pher s)) (fun old => bound O s (n_add O (n_mul O old (s_p s)) (s_best_pher s))) (fade_low O s) k ts s (s_best s) H Hc (i_best _ _ _ _ H) ltac:(done)).
  bnd E g1 E1. cbn [mbind option_bind]. rewrite E. done.
Qed.
Definition reward_best_nodes_of s : aco F :=
  set_node_phers (fun e old => if node_on s (s_best s) e then bound O s (n_add O (n_mul O old (s_p s)) (s_best_pher s)) else fade_low O s old) s.
Lemma update_pheromones_best_nodes_ok k ts s : inv O k ts s -> unmarked s -> s_every s <> 0 ->
  update_pheromones_best_nodes O s = Some (if s_iter s mod s_every s =? 0 then reward_best_nodes_of s else s).
Proof.
  intros H Hc He. unfold update_pheromones_best_nodes, due. rewrite decide_False by done. cbn [mbind option_bind]. destruct (_ =? 0); [|done].
  assert (E := reward_nodes (deposit_node O s (s_best_pher s)) (fun old => bound O s (n_add O (n_mul O old (s_p s)) (s_best_pher s))) (fade_low O s) k ts s (s_best s) H Hc (i_best _ _ _ _ H) ltac:(done)).
  bnd E g1 E1. cbn [mbind option_bind]. rewrite E. done.
Qed.

(** all the ants *)
Definition partial_free s (j : nat) (e : nat) (y : edge F) : edge F :=
  let d := (filter (fun p => edge_on s p.1 e = true) (take j (zip (s_trails s) (s_phers s)))).*2 in
  match d with [] => y | _ => set_eflag true (set_epher (foldl (n_add O) (n_mul O (g_pher y) (s_p s)) d) y) end.
Lemma free_loop k ts s : inv O k ts s -> clear_edges (s_graph s) -> forall n, n <= length (s_phers s) ->
  for_loop n 0 (fun i g => t ← rd (s_trails s) i; x ← rd (s_phers s) i; on_path_edges (deposit_free O s x) t g) (s_graph s) =
  Some (Graph (g_nodes (s_graph s)) (imap (partial_free s n) (g_edges (s_graph s)))).
Proof.
  intros H Hc. induction n as [|n IH]; intros Hn.
  - cbn [for_loop]. f_equal. destruct (s_graph s) as [ns es]. cbn [g_nodes g_edges]. f_equal. symmetry. apply imap_id. done.
  - rewrite for_loop_S_r, IH by lia. cbn [mbind option_bind plus]. pose proof (i_ants _ _ _ _ H) as L1. pose proof (i_ants' _ _ _ _ H) as L2.
    destruct (lookup_lt_is_Some_2 (s_trails s) n ltac:(lia)) as [t Et]. destruct (lookup_lt_is_Some_2 (s_phers s) n ltac:(lia)) as [x Ex]. unfold rd. rewrite Et. cbn [mbind option_bind]. rewrite Ex. cbn [mbind option_bind].
    set (g' := Graph (g_nodes (s_graph s)) (imap (partial_free s n) (g_edges (s_graph s)))).
    assert (Hs : same (s_graph s) g').
    { split; [done|]. cbn [g' g_edges]. apply list_eq. intros i. rewrite !list_lookup_fmap, list_lookup_imap. destruct (g_edges (s_graph s) !! i); [|done]. cbn.
      unfold partial_free. by destruct (_.*2). }
    assert (Ht : trail_ok k ts t) by (pose proof (i_trails _ _ _ _ H) as Hf; rewrite list.Forall_forall in Hf; apply Hf; by eapply elem_of_list_lookup_2).
    change g' with (s_graph (with_graph s g')) at 1. rewrite (on_path_edges_ok _ k ts (with_graph s g') t) by (done || by apply inv_graph). cbn [with_graph s_graph g' g_nodes g_edges]. do 2 f_equal.
    apply list_eq. intros i. rewrite !list_lookup_imap. destruct (g_edges (s_graph s) !! i) as [y|] eqn:Ey; [|done]. cbn [fmap option_fmap option_map]. f_equal.
    assert (Fy : g_flag y = false) by (unfold clear_edges in Hc; rewrite list.Forall_forall in Hc; apply Hc; by eapply elem_of_list_lookup_2).
    destruct (trail_ok_of k ts s t H Ht) as (l & El & _). rewrite (edge_on_same s (with_graph s g')) by (done || eauto).
    unfold partial_free. rewrite (take_S_r _ n (t, x)) by (apply lookup_zip_with_Some; eauto). rewrite list.filter_app, fmap_app, foldl_app.
    set (d := (filter _ (take n _)).*2). rewrite filter_cons. cbn [fst]. destruct (edge_on s t i).
    + rewrite decide_True by done. rewrite filter_nil. cbn [fmap list_fmap foldl snd]. destruct d as [|d0 d]; cbn [app].
      * unfold deposit_free. rewrite Fy. done.
      * unfold deposit_free. cbn. done.
    + rewrite decide_False by done. rewrite filter_nil. cbn [fmap list_fmap foldl]. rewrite app_nil_r. done.
Qed.
Definition reward_all_of s : aco F := with_iter (set_edge_phers (fun e old => foldl (n_add O) (n_mul O old (s_p s)) (deposits s e)) s) (S (s_iter s)).
Lemma update_pheromones_free_ok k ts s : inv O k ts s -> clear_edges (s_graph s) -> update_pheromones_free O s = Some (reward_all_of s).
Proof.
  intros H Hc. unfold update_pheromones_free. rewrite (free_loop k ts) by done. cbn [mbind option_bind].
  rewrite each_all_edges by (cbn [g_edges]; rewrite imap_length, (inv_elen _ _ _ _ H); apply (i_edges _ _ _ _ H)). cbn [mbind option_bind g_nodes g_edges].
  unfold reward_all_of, set_edge_phers. do 4 f_equal. apply list_eq. intros i. rewrite list_lookup_fmap, !list_lookup_imap. destruct (g_edges (s_graph s) !! i) as [y|] eqn:Ey; [|done].
  cbn [fmap option_fmap option_map]. f_equal. assert (Fy : g_flag y = false) by (unfold clear_edges in Hc; rewrite list.Forall_forall in Hc; apply Hc; by eapply elem_of_list_lookup_2).
  unfold partial_free, deposits. rewrite take_ge by (rewrite zip_with_length; lia). destruct (_.*2) as [|d0 d]; unfold fade_edge.
  - rewrite Fy. done.
  - cbn. unfold set_eflag, set_epher. cbn. by rewrite Fy.
Qed.

(** edges are unmarked in every reached state *)
Lemma each_rel {A} (R : graph F -> graph F -> Prop) (f : A -> graph F -> option (graph F)) l g g' : (forall g, R g g) -> (forall g1 g2 g3, R g1 g2 -> R g2 g3 -> R g1 g3) ->
  (forall x g g', f x g = Some g' -> R g g') -> each f l g = Some g' -> R g g'.
Proof. intros Hr Ht Hf. revert g. induction l as [|x l IH]; intros g E; cbn in E; [by injection E as <-|]. bnd E g1 E1. eapply Ht; [by eapply Hf|by apply IH]. Qed.
Lemma for_loop_rel (R : graph F -> graph F -> Prop) (f : nat -> graph F -> option (graph F)) cnt : (forall g, R g g) -> (forall g1 g2 g3, R g1 g2 -> R g2 g3 -> R g1 g3) ->
  (forall x g g', f x g = Some g' -> R g g') -> forall i g g', for_loop cnt i f g = Some g' -> R g g'.
Proof. intros Hr Ht Hf. induction cnt as [|cnt IH]; intros i g g' E; cbn in E; [by injection E as <-|]. bnd E g1 E1. eapply Ht; [by eapply Hf|by eapply IH]. Qed.
Definition clr g g' : Prop := clear_edges g -> clear_edges g'.
Lemma clr_refl g : clr g g. Proof. by intros ?. Qed.
Lemma clr_trans g1 g2 g3 : clr g1 g2 -> clr g2 g3 -> clr g1 g3. Proof. unfold clr. auto. Qed.
Hint Resolve clr_refl : core.
Lemma on_node_clr f i g g' : on_node f i g = Some g' -> clr g g'.
Proof. intros E. unfold on_node in E. bnd E n En. bnd E ns Ew. injection E as <-. intros ?. done. Qed.
Lemma on_edge_clr f i g g' : (forall y, g_flag y = false -> g_flag (f y) = false) -> on_edge f i g = Some g' -> clr g g'.
Proof.
  intros Hf E Hc. unfold on_edge in E. bnd E n En. bnd E ns Ew. injection E as <-. apply wr_inv in Ew as [_ ->]. apply Forall_insert; [done|]. apply Hf.
  unfold clear_edges in Hc. rewrite list.Forall_forall in Hc. apply Hc. by eapply elem_of_list_lookup_2.
Qed.
Lemma each_node_clr f l g g' : each (on_node f) l g = Some g' -> clr g g'.
Proof. apply each_rel; [done|apply clr_trans|]. intros x g1 g2. apply on_node_clr. Qed.
Lemma each_edge_clr f l g g' : (forall y, g_flag y = false -> g_flag (f y) = false) -> each (on_edge f) l g = Some g' -> clr g g'.
Proof. intros Hf. apply each_rel; [done|apply clr_trans|]. intros x g1 g2. by apply on_edge_clr. Qed.
Lemma along_clr h t : forall k x g g', along (fun e => e) h k x t g = Some g' -> clr g g'.
Proof.
  induction t as [|i t IH]; intros k x g g' E; cbn [along] in E; [by injection E as <-|]. bnd E n En. destruct (decide _); [by injection E as <-|]. bnd E e Ee. bnd E y Ey. bnd E g1 E1. bnd E g2 E2.
  eapply clr_trans; [eapply on_edge_clr; [|exact E1]; done|]. eapply clr_trans; [by eapply on_node_clr|by eapply IH].
Qed.
Lemma set_edge_phers_clear f s : clear_edges (s_graph s) -> clear_edges (s_graph (set_edge_phers f s)).
Proof.
  unfold clear_edges. cbn. rewrite !list.Forall_forall. intros H y Hy. apply elem_of_list_lookup in Hy as [i Hi]. rewrite list_lookup_imap in Hi.
  destruct (g_edges (s_graph s) !! i) as [z|] eqn:Ez; [|done]. cbn in Hi. injection Hi as <-. cbn. apply H. by eapply elem_of_list_lookup_2.
Qed.
Lemma run_call_clear k ts c s s' : inv O k ts s -> clear_edges (s_graph s) -> run_call O c s = Some s' -> clear_edges (s_graph s').
Proof.
  intros H Hc E. destruct c; cbn [run_call] in E.
  1-4: destruct (build_path_by_inv O k ts s _ _ s' H E) as (t & Hf & _ & ->); done.
  - unfold set_pheromone_to_index in E. destruct (decide _); [by injection E as <-|]. bnd E l El. by injection E as <-.
  - unfold update_best_trail in E. revert E Hc. clear. generalize 0 at 1. generalize (length (s_trails s)). intros n. revert s. induction n as [|n IH]; intros s i E Hc; cbn in E; [by injection E as <-|].
    destruct (rd (s_phers s) i) as [x|]; [|done]. cbn [mbind option_bind] in E. destruct (rd (s_trails s) i) as [t|]; [|done]. cbn [mbind option_bind] in E. eapply IH; [exact E|]. by destruct (n_lt O _ x).
  - by injection E as <-.
  - injection E as <-. unfold update_taus. by destruct (_ || _).
  - destruct (best_ant O s) as [b|] eqn:Eb; [|unfold update_pheromones in E; by rewrite Eb in E]. rewrite (update_pheromones_ok k ts s b H Hc Eb) in E. injection E as <-. by apply set_edge_phers_clear.
  - unfold update_pheromones_nodes in E. bnd E b Eb. bnd E g1 E1. bnd E g2 E2. injection E as <-. apply (each_node_clr _ _ _ _ E2), (along_clr _ _ _ _ _ _ E1), Hc.
  - unfold update_pheromones_subnodes in E. destruct (decide _); [done|]. bnd E b Eb. bnd E g1 E1. bnd E g2 E2. injection E as <-. cbn. apply along_clr in E1. apply for_loop_rel with (R := clr) in E2; [auto|done|apply clr_trans|].
    intros x g g' E. cbn beta in E. bnd E y Ey. by eapply on_node_clr.
  - rewrite (update_pheromones_free_ok k ts) in E by done. injection E as <-. by apply set_edge_phers_clear.
  - destruct (decide (s_every s = 0)) as [Z|Z]; [unfold update_pheromones_best, due in E; by rewrite decide_True in E by done|].
    rewrite (update_pheromones_best_ok k ts) in E by done. injection E as <-. destruct (_ =? 0); [|done]. by apply set_edge_phers_clear.
  - unfold update_pheromones_best_nodes in E. bnd E b Eb. destruct b; [|by injection E as <-]. bnd E g1 E1. bnd E g2 E2. injection E as <-. apply (each_node_clr _ _ _ _ E2), (along_clr _ _ _ _ _ _ E1), Hc.
  - unfold recompute_pheromones in E. bnd E g1 E1. injection E as <-. eapply each_edge_clr; [|exact E1|done]. done.
  - unfold recompute_pheromones_nodes in E. bnd E g1 E1. injection E as <-. by apply (each_node_clr _ _ _ _ E1).
  - destruct (recompute_if_stagnant O threshold delta s) as [[s1 x]|] eqn:E1; [|done]. cbn in E. injection E as <-. unfold recompute_if_stagnant in E1.
    bnd E1 y Ey. bnd E1 s2 E2. injection E1 as <- _. destruct (n_lt O y threshold); [|by injection E2 as <-]. unfold recompute_pheromones in E2. bnd E2 g1 E3. injection E2 as <-. eapply each_edge_clr; [|exact E3|done]. done.
  - destruct (recompute_if_stagnant_nodes O threshold delta s) as [[s1 x]|] eqn:E1; [|done]. cbn in E. injection E as <-. unfold recompute_if_stagnant_nodes in E1.
    bnd E1 y Ey. bnd E1 s2 E2. injection E1 as <- _. destruct (n_lt O y threshold); [|by injection E2 as <-]. unfold recompute_pheromones_nodes in E2. bnd E2 g1 E3. injection E2 as <-. by apply (each_node_clr _ _ _ _ E3).
  - unfold pso_function in E. bnd E g1 E1. injection E as <-. cbn. apply each_rel with (R := clr) in E1; [auto|done|apply clr_trans|]. intros x g g' E. cbn beta in E. bnd E n En.
    destruct (is_weight _); [|by injection E as <-]. bnd E phs Ep. by eapply on_node_clr.
  - unfold pso_function_nodes in E. bnd E g1 E1. injection E as <-. by apply (each_node_clr _ _ _ _ E1).
  - unfold best_personal in E. bnd E g1 E1. injection E as <-. by apply (each_node_clr _ _ _ _ E1).
  - unfold best_global, best_global_by in E. bnd E g1 E1. injection E as <-. cbn. apply for_loop_rel with (R := clr) in E1; [auto|done|apply clr_trans|]. intros x g g' E. cbn beta in E.
    bnd E r E2. bnd E w E3. bnd E nodes E4. apply for_loop_rel with (R := clr) in E; [done|done|apply clr_trans|]. intros y h h' Ey. unfold share_row in Ey. bnd Ey row E5. bnd Ey b E6. by eapply each_node_clr.
  - unfold best_global_nodes, best_global_by in E. bnd E g1 E1. injection E as <-. cbn. apply for_loop_rel with (R := clr) in E1; [auto|done|apply clr_trans|]. intros x g g' E. cbn beta in E.
    bnd E r E2. bnd E w E3. bnd E nodes E4. apply for_loop_rel with (R := clr) in E; [done|done|apply clr_trans|]. intros y h h' Ey. unfold share_row in Ey. bnd Ey row E5. bnd Ey b E6. by eapply each_node_clr.
  - unfold update_pso in E. bnd E g0 E0. unfold reset_flags in E. bnd E g1 E1. bnd E g2 E2. injection E as <-. cbn in *. apply each_node_clr in E1. eapply each_edge_clr in E2; [|done]. apply E2, E1.
    apply for_loop_rel with (R := clr) in E0; [auto|done|apply clr_trans|]. intros x g g' E. cbn beta in E. bnd E r E3. bnd E w_ E4. bnd E nodes E5. apply for_loop_rel with (R := clr) in E; [done|done|apply clr_trans|].
    intros y h h' Ey. cbn beta in Ey. bnd Ey row E6. eapply each_rel with (R := clr) in Ey; [done|done|apply clr_trans|]. intros z u u' Ez. unfold pso_step in Ez. bnd Ez n F1. bnd Ez p F2. bnd Ez m F3.
    destruct (differ _ _ _); [|by injection Ez as <-]. by eapply on_node_clr.
  - unfold reset_flags in E. bnd E g1 E1. bnd E g2 E2. injection E as <-. cbn in *. apply each_node_clr in E1. eapply each_edge_clr in E2; [|done]. apply E2, E1, Hc.
  - by injection E as <-.
Qed.
Lemma reached_clear k s : setup_ok O k -> reached O k s -> exists ts, inv O k ts s /\ clear_edges (s_graph s).
Proof.
  intros Hk (junk & rnd & cs & s0 & E0 & E). destruct (inv_init O junk rnd k s0 Hk E0) as [ts H]. exists ts.
  assert (Hc : clear_edges (s_graph s0)).
  { destruct (init_aco_ok O junk rnd k Hk) as (ts' & nodes & edges & E' & _). rewrite E' in E0. injection E0 as <-. unfold clear_edges. cbn. rewrite !list.Forall_fmap. by apply list.Forall_true. }
  clear E0. revert s0 H Hc E. induction cs as [|c cs IH]; intros s0 H Hc E; cbn in E; [by injection E as <-|]. bnd E s1 E1.
  eapply IH; [|by eapply run_call_clear|exact E]. by eapply run_call_inv.
Qed.
End pher.
