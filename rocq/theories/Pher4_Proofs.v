(** Rounds of the search, stagnation, and what goes wrong. *)
From Coq Require Import Reals Lra.
From Verif Require Import BaseLemmas Aco_Spec Aco_Proofs Aco2_Proofs Aco3_Proofs Aco4_Proofs Aco5_Proofs Aco6_Proofs Aco8_Proofs Aco9_Proofs Pher_Spec Pher_Proofs Pher2_Proofs Pher3_Proofs.
Ltac bnd H x E := match type of H with mbind _ ?o = _ => destruct o as [x|] eqn:E; [|done] end; cbn [mbind option_bind] in H.
Open Scope nat_scope.

(** the root comes first in s->nodes *)
Section head.
Context {F : Type} (O : num F).
Lemma for_keep {St} (P : St -> Prop) body cnt : forall i (s s' : St), for_loop cnt i body s = Some s' -> P s -> (forall i s s', P s -> body i s = Some s' -> P s') -> P s'.
Proof. induction cnt as [|cnt IH]; intros i s s' H Hs Hb; cbn in H; [by injection H as <-|]. bnd H s1 Q1. eauto. Qed.
Lemma visit_prefix fuel : forall x (st st' : graph F * list nat * list nat), visit fuel x st = Some st' -> exists M, st'.1.2 = st.1.2 ++ M.
Proof.
  induction fuel as [|fuel IH]; intros x [[g N] E] st' H; [done|]. cbn [visit] in H. bnd H n En. destruct (o_flag n); [injection H as <-; exists []; by rewrite app_nil_r|].
  bnd H ns Ens. apply (for_keep (fun st : graph F * list nat * list nat => exists M, st.1.2 = N ++ M)) in H; [done|exists [x]; done|].
  intros i [[g1 N1] E1] st1 [M HM] Hs. bnd Hs e Ee. bnd Hs y Ey. destruct (IH _ _ _ Hs) as [M' HM']. cbn in HM, HM'. exists (M ++ M'). by rewrite HM', HM, app_assoc.
Qed.
Lemma collect_head root (g : graph F) st : collect root g = Some st -> st.1.2 = [] \/ st.1.2 !! 0 = Some root.
Proof.
  intros H. unfold collect in H. bnd H st1 Ev. destruct st1 as [[g1 N1] E1']. bnd H g2 E2. bnd H g3 E3. injection H as <-. cbn. cbn [visit] in Ev. bnd Ev n En.
  destruct (o_flag n); [injection Ev as <- <- <-; by left|]. bnd Ev ns Ens. right.
  assert (HM : exists M, N1 = [root] ++ M).
  { apply (for_keep (fun st : graph F * list nat * list nat => exists M, st.1.2 = [root] ++ M)) in Ev; [done|exists []; done|].
    intros i [[g4 N4] E4] st4 [M HM] Hs. bnd Hs e Ee. bnd Hs y Ey. destruct (visit_prefix _ _ _ _ Hs) as [M' HM']. cbn in HM, HM'. exists (M ++ M'). by rewrite HM', HM. }
  destruct HM as [M ->]. done.
Qed.
Lemma init_head junk rnd k (s : aco F) : setup_ok O k -> init_aco O junk rnd k = Some s -> s_nodes s !! 0 = Some 0.
Proof.
  intros Hk E. destruct (inv_init O junk rnd k s Hk E) as [ts H]. assert (Hne : s_nodes s <> []).
  { intros Z. pose proof (i_nodes _ _ _ _ H) as P. rewrite Z in P. apply Permutation_length in P. rewrite seq_length, bodies_length in P. cbn in P. lia. }
  unfold init_aco in E. repeat case_decide; try done. destruct (_ || _); [done|]. cbn [init_node] in E. bnd E st Est. destruct st as [g ls]. bnd E st Ec. destruct st as [[g1 N] E1'].
  bnd E g2 Eg2. bnd E g3 Eg3. injection E as <-. cbn in *. by destruct (collect_head _ _ _ Ec).
Qed.
Lemma reached_head k (s : aco F) : setup_ok O k -> reached O k s -> s_nodes s !! 0 = Some 0.
Proof.
  intros Hk. apply (reached_ind O k (fun s => s_nodes s !! 0 = Some 0) Hk); [intros; by eapply init_head|].
  intros ts c s0 s' H _ E Hs. by destruct (run_call_frame O k ts c s0 s' H E) as (-> & _).
Qed.
(** a trail does not come back to the root *)
Lemma trail_off_root k ts (s : aco F) t l : inv O k ts s -> trail_ok k ts t -> trail_of (s_graph s) 0 t = Some l -> 0 ∉ l.*2.
Proof.
  intros H [->|[L [ls Els]]] El; [injection El as <-; apply not_elem_of_nil|]. pose proof (inv_by_rows _ _ _ _ H) as Hby.
  destruct (steps_rows _ _ _ Hby t 0 (0, [0]) 0 ls eq_refl ltac:(left) Els) as [A _]. rewrite L in A. cbn [rows_ length drop] in A. rewrite Nat.sub_succ, Nat.sub_0_r, take_ge in A by done.
  assert (Hlen : 0 < length (g_nodes (s_graph s))) by (rewrite (inv_len _ _ _ _ H), bodies_length; lia).
  destruct (steps_trail (s_graph s) ts (i_adj _ _ _ _ H) (inv_wf _ _ _ _ H) t 0 ls Hlen Els) as (l' & E & E2 & E3). rewrite El in E. injection E as <-. rewrite E2.
  pose proof (lay_NoDup _ _ _ (i_lay _ _ _ _ H)) as HN. unfold rows_, rows_nodes in HN. rewrite fmap_cons in HN. cbn [mjoin list_join] in HN. apply NoDup_app in HN as (_ & HD & HN).
  intros Hv. apply (HD 0); [left|]. eapply (picks_NoDup _ HN); [|exact Hv]. apply Forall2_fmap_l. eapply Forall2_impl; [exact A|]. intros x r [? _]. done.
Qed.
Lemma along_rest (h : nat -> node F -> node F) t : forall j x (g : graph F) l, (forall i n, j <= i -> h i n = n) -> trail_of g x t = Some l -> Forall (fun p => p.2 < length (g_nodes g)) l ->
  along (fun e => e) h j x t g = Some g.
Proof.
  induction t as [|i t IH]; intros j x g l Hh E HF; [done|]. cbn [trail_of] in E. bnd E n En. bnd E e Ee. bnd E y Ey. bnd E l' El. injection E as <-. apply list.Forall_cons in HF as [Hlt HF]. cbn in Hlt.
  cbn [along]. assert (R0 : rd (g_nodes g) x = Some n) by exact En. rewrite R0. cbn [mbind option_bind]. destruct (decide _); [done|]. assert (R1 : rd (o_outputs n) i = Some e) by exact Ee. rewrite R1. cbn [mbind option_bind].
  assert (R2 : rd (g_edges g) e = Some y) by exact Ey. rewrite R2. cbn [mbind option_bind]. rewrite (on_edge_eq _ _ _ _ Ey). cbn [mbind option_bind]. rewrite list_insert_id by done.
  destruct (lookup_lt_is_Some_2 _ _ Hlt) as [m Em]. rewrite (on_node_eq _ _ _ m) by exact Em. cbn [mbind option_bind g_nodes g_edges]. rewrite Hh by lia. rewrite list_insert_id by done.
  replace (Graph (g_nodes g) (g_edges g)) with g by (by destruct g). eapply IH; [|exact El|done]. intros; apply Hh; lia.
Qed.
Lemma subnodes_mark k ts (s : aco F) t x : inv O k ts s -> s_nodes s !! 0 = Some 0 -> best_ant O s = Some (t, x) -> t <> [] ->
  exists s' v n, update_pheromones_subnodes O 0 1 s = Some s' /\ g_nodes (s_graph s') !! v = Some n /\ o_flag n = true.
Proof.
  intros H H0 Hb Hne. destruct (best_ant_inv O _ _ _ _ H Hb) as [Ht _]. cbn [fst] in Ht. destruct (trail_ok_of O k ts s t H Ht) as (l & El & _ & _ & HF). pose proof (trail_off_root k ts s t l H Ht El) as Hoff.
  unfold update_pheromones_subnodes. rewrite decide_False by lia. rewrite Hb. cbn [mbind option_bind fst snd]. destruct t as [|i t]; [done|]. cbn [trail_of] in El.
  bnd El n En. bnd El e Ee. bnd El y Ey. bnd El l' El'. injection El as <-. apply list.Forall_cons in HF as [[Hlt _] HF]. cbn in Hlt. rewrite fmap_cons in Hoff. apply not_elem_of_cons in Hoff as [Hv _]. cbn in Hv.
  unfold on_path_nodes. cbn [along]. assert (R0 : rd (g_nodes (s_graph s)) 0 = Some n) by exact En. rewrite R0. cbn [mbind option_bind]. rewrite decide_False by (intros Z; by rewrite Z in Ee).
  assert (R1 : rd (o_outputs n) i = Some e) by exact Ee. rewrite R1. cbn [mbind option_bind].
  assert (R2 : rd (g_edges (s_graph s)) e = Some y) by exact Ey. rewrite R2. cbn [mbind option_bind]. rewrite (on_edge_eq _ _ _ _ Ey). cbn [mbind option_bind]. rewrite list_insert_id by done.
  destruct (lookup_lt_is_Some_2 _ _ Hlt) as [m Em]. rewrite (on_node_eq _ _ _ m) by exact Em. cbn [mbind option_bind g_nodes g_edges].
  set (g1 := Graph (<[g_out y := sub_deposit O s x 0 1 0 m]> (g_nodes (s_graph s))) (g_edges (s_graph s))).
  assert (Hs : same (s_graph s) g1).
  { eapply (on_node_same (sub_deposit O s x 0 1 0) (g_out y)); [intros z; unfold sub_deposit; by destruct (decide _)|]. apply on_node_eq. done. }
  rewrite (along_rest _ t 1 (g_out y) g1 l'); [|intros j z Hj; unfold sub_deposit; by rewrite decide_False by lia|by eapply trail_of_same|].
  2: { eapply list.Forall_impl; [exact HF|]. intros p [? _]. by rewrite (same_nodes _ _ Hs). }
  cbn [mbind option_bind for_loop minus]. assert (R3 : rd (s_nodes s) 0 = Some 0) by exact H0. rewrite R3. cbn [mbind option_bind].
  assert (E0 : g_nodes g1 !! 0 = Some n) by (unfold g1; cbn; by rewrite list_lookup_insert_ne).
  rewrite (on_node_eq _ _ _ _ E0). cbn [mbind option_bind]. eexists _, (g_out y), (sub_deposit O s x 0 1 0 m). split; [done|]. cbn [with_iter with_graph s_graph g_nodes g1]. split.
  - rewrite list_lookup_insert_ne by done. by rewrite list_lookup_insert.
  - unfold sub_deposit. by rewrite decide_True by lia.
Qed.
End head.

Open Scope R_scope.
Lemma init_healthy junk rnd k (s : aco R) : setup_ok real_num k -> 0 < k_tau k -> init_aco real_num junk rnd k = Some s -> healthy s.
Proof.
  intros Hk Ht E. destruct (init_aco_ok real_num junk rnd k Hk) as (ts & nodes & edges & E' & _). rewrite E' in E. injection E as <-. split; cbn [s_graph s_max s_min s_phers s_best_pher ready g_nodes g_edges].
  - apply list.Forall_fmap, list.Forall_true. done.
  - apply list.Forall_fmap, list.Forall_true. done.
  - done.
  - cbn. lra.
  - apply list.Forall_replicate. cbn. lra.
  - cbn. lra.
  - unfold unmarked. cbn [s_graph ready g_nodes]. apply list.Forall_fmap. unfold mk. cbn [g_nodes]. apply list.Forall_forall. intros n Hn. apply elem_of_list_lookup in Hn as [i Hi].
    rewrite list_lookup_imap in Hi. destruct (_ !! i); [|done]. cbn in Hi. injection Hi as <-. done.
Qed.
Lemma run_app {F} (O : num F) a b (s : aco F) : run O (a ++ b) s = (s' ← run O a s; run O b s').
Proof. revert s. induction a as [|c a IH]; intros s; [done|]. cbn [app run]. destruct (run_call O c s); cbn [mbind option_bind]; [apply IH|done]. Qed.
Lemma ants_go k ps : setup_ok real_num k -> 0 < k_p k < 1 -> Forall (fun p : (nat -> R) * R => (forall m, p.1 m <= 1) /\ 0 < p.2) ps ->
  forall o (s : aco R), (o + length ps <= k_ants k)%nat -> reached real_num k s -> healthy s ->
  exists s', run real_num (concat (imap (fun a (p : (nat -> R) * R) => [Walk p.1 (o + a)%nat; Credit (o + a)%nat p.2]) ps)) s = Some s' /\ reached real_num k s' /\ healthy s' /\
    (ps <> [] \/ Exists (fun x => 0 < x) (s_phers s) -> Exists (fun x => 0 < x) (s_phers s')).
Proof.
  intros Hk Hp H. induction H as [|[r x] ps [Hr Hx] _ IH]; intros o s Ho HR HS; [exists s; refine (conj eq_refl (conj HR (conj HS _))); by intros [?|?]|].
  rewrite imap_cons. cbn [concat app]. cbn [fst snd] in *. cbn [length] in Ho. rewrite Nat.add_0_r.
  destruct (good_step k s (Walk r o) Hk Hp HR HS) as (s1 & Q1 & R1' & S1); [cbn; split; [lia|done]|]. cbn [run]. rewrite Q1. cbn [mbind option_bind].
  destruct (good_step k s1 (Credit o x) Hk Hp R1' S1) as (s2 & Q2 & R2 & S2); [cbn; split; [lia|lra]|]. rewrite Q2. cbn [mbind option_bind].
  destruct (reached_clear real_num k s1 Hk R1') as (ts & Hi & _). 
  destruct (IH (S o) s2 ltac:(lia) R2 S2) as (s' & E & R' & S' & HE). exists s'. split; [|split; [done|]; split; [done|]].
  - rewrite <- E. f_equal. f_equal. apply imap_ext. intros i [r' x'] _. cbn. by rewrite !Nat.add_succ_r.
  - intros _. apply HE. right. cbn [run_call] in Q2. unfold set_pheromone_to_index in Q2. pose proof (i_ants' _ _ _ _ Hi) as L. rewrite decide_False in Q2 by lia. rewrite wr_Some in Q2 by lia.
    cbn [mbind option_bind] in Q2. injection Q2 as <-. cbn. apply list.Exists_exists. exists x. split; [|done]. apply elem_of_list_lookup. exists o. by rewrite list_lookup_insert by lia.
Qed.
Lemma round_go k rs xs (s : aco R) : setup_ok real_num k -> 0 < k_p k < 1 -> k_every k <> 0%nat -> (0 < k_ants k)%nat -> length rs = k_ants k -> length xs = k_ants k ->
  Forall (fun r : nat -> R => forall m, r m <= 1) rs -> Forall (fun x => 0 < x) xs -> reached real_num k s -> healthy s ->
  exists s', run real_num (round rs xs) s = Some s' /\ reached real_num k s' /\ healthy s'.
Proof.
  intros Hk Hp He Ha L1 L2 F1 F2 HR HS. unfold round. rewrite run_app.
  assert (HF : Forall (fun p : (nat -> R) * R => (forall m, p.1 m <= 1) /\ 0 < p.2) (zip rs xs)).
  { apply list.Forall_forall. intros [r x] Hz. cbn. split; [apply (proj1 (list.Forall_forall _ _) F1); by eapply elem_of_zip_l|apply (proj1 (list.Forall_forall _ _) F2); by eapply elem_of_zip_r]. }
  assert (Lz : length (zip rs xs) = k_ants k) by (rewrite zip_with_length; lia).
  destruct (ants_go k (zip rs xs) Hk Hp HF 0 s ltac:(lia) HR HS) as (s1 & Q1 & R1' & S1 & HE). cbn [plus] in Q1. rewrite Q1. cbn [mbind option_bind].
  assert (HX : Exists (fun x => 0 < x) (s_phers s1)) by (apply HE; left; intros Z; rewrite Z in Lz; cbn in Lz; lia).
  destruct (reached_clear real_num k s1 Hk R1') as (ts & Hi & _). destruct (remember_ok k ts s1 Hi) as (b & x & Er & _ & Hall & _).
  assert (Hx : 0 < x). { apply list.Exists_exists in HX as (y & Hy & Hy0). rewrite list.Forall_forall in Hall. specialize (Hall y Hy). cbn in Hall. lra. }
  destruct (good_step k s1 Remember Hk Hp R1' S1 I) as (s2 & Q2 & R2 & S2). cbn [run]. rewrite Q2. cbn [mbind option_bind]. cbn [run_call] in Q2. rewrite Er in Q2. injection Q2 as <-.
  destruct (good_step k _ Taus Hk Hp R2 S2 Hx) as (s3 & Q3 & R3 & S3). rewrite Q3. cbn [mbind option_bind].
  destruct (good_step k _ Reward Hk Hp R3 S3 Ha) as (s4 & Q4 & R4 & S4). rewrite Q4. cbn [mbind option_bind].
  destruct (good_step k _ RewardBest Hk Hp R4 S4 He) as (s5 & Q5 & R5 & S5). rewrite Q5. cbn [mbind option_bind]. eauto.
Qed.

(** stagnation *)
Lemma sum_perm l l' : l ≡ₚ l' -> sum l = sum l'.
Proof. unfold sum. induction 1; cbn [foldr] in *; lra. Qed.
Lemma foldl_sum f l x : foldl (fun a y : R => n_add real_num a (f y)) x l = x + sum (f <$> l).
Proof. revert x. induction l as [|y l IH]; intros x; [cbn; lra|]. cbn [foldl]. rewrite IH. rewrite fmap_cons. unfold sum. cbn. lra. Qed.
Lemma slack_min (s : aco R) x : slack real_num s x = Rmin (s_max s - x) (x - s_min s).
Proof. unfold slack, Rmin. rewrite n_ltb. cbn. case_bool_decide; destruct (Rle_dec _ _); lra. Qed.
Lemma stagnation_sum (s : aco R) phs l : phs ≡ₚ l -> stagnation_of real_num s phs = sum ((fun x => Rmin (s_max s - x) (x - s_min s)) <$> l) / (INR (length (s_nodes s)) * INR (length (s_nodes s))).
Proof.
  intros P. unfold stagnation_of. rewrite foldl_sum. cbn [n_z real_num n_div n_mul]. rewrite <- !INR_IZR_INZ. rewrite (sum_perm _ ((fun x => Rmin (s_max s - x) (x - s_min s)) <$> l)).
  - f_equal. cbn. lra.
  - rewrite <- P. erewrite list_fmap_ext; [done|]. intros i x _. apply slack_min.
Qed.
Lemma sum_zero l : Forall (fun x => 0 <= x) l -> 0 <= sum l /\ (sum l = 0 <-> Forall (fun x => x = 0) l).
Proof.
  unfold sum. induction 1 as [|x l Hx _ [IH1 IH2]]; cbn [foldr] in *; [split; [lra|]; split; [constructor|done]|]. split; [lra|]. rewrite list.Forall_cons. rewrite <- IH2. lra.
Qed.

(** averages *)
Lemma counts_width1 sizes : forall widths acts, Forall (fun w => w = 1%nat) widths -> Forall (fun a => exists x, a = Some x) acts -> Forall (fun n => 0 < n)%nat sizes ->
  (count_edges 1 sizes widths acts <= count_nodes sizes widths acts)%nat.
Proof.
  induction sizes as [|a [|b sizes] IH]; intros [|w widths] [|c acts] Hw Hc Hs; try (cbn; lia). 
  apply list.Forall_cons in Hw as [-> Hw]. apply list.Forall_cons in Hc as [[x ->] Hc]. apply list.Forall_cons in Hs as [Ha Hs]. pose proof (IH widths acts Hw Hc Hs) as IH'.
  apply list.Forall_cons in Hs as [Hb _]. assert (0 < a * b)%nat by (apply Nat.mul_pos_pos; done). cbn [count_nodes count_edges n_acts] in *. lia.
Qed.
Lemma counts_width2 sizes : forall widths acts, Forall (fun w => w = 2%nat) widths -> Forall (fun a => exists x, a = Some x) acts -> Forall (fun n => 0 < n)%nat sizes ->
  length widths = length sizes -> (length sizes - 1 <= length acts)%nat ->
  (count_nodes sizes widths acts + (length sizes - 1) <= count_edges 1 sizes widths acts <= 2 * count_nodes sizes widths acts)%nat.
Proof.
  induction sizes as [|a [|b sizes] IH]; intros [|w widths] [|c acts] Hw Hc Hs L1 L2; try (cbn in *; lia).
  apply list.Forall_cons in Hw as [-> Hw]. apply list.Forall_cons in Hc as [[x ->] Hc]. apply list.Forall_cons in Hs as [Ha Hs]. cbn [length] in L1, L2.
  pose proof (IH widths acts Hw Hc Hs ltac:(cbn [length]; lia) ltac:(cbn [length]; lia)) as IH'.
  apply list.Forall_cons in Hs as [Hb _]. assert (0 < a * b)%nat by (apply Nat.mul_pos_pos; done). cbn [count_nodes count_edges n_acts length] in *. lia.
Qed.
Lemma average_of k (s : aco R) : setup_ok real_num k -> reached real_num k s ->
  s_average s = INR (count_edges 1 (k_sizes k) (k_widths k) (k_acts k) / (1 + count_nodes (k_sizes k) (k_widths k) (k_acts k))) /\ s_p s = k_p k /\ s_pdec s = k_pdec k.
Proof.
  intros Hk Hr. destruct (reached_clear real_num k s Hk Hr) as (ts & H & _). destruct (inv_counts real_num k ts s Hk H) as [C1 C2]. rewrite (i_avg _ _ _ _ H), C1, C2.
  split; [cbn [n_z real_num]; by rewrite <- INR_IZR_INZ|]. split; apply H.
Qed.

(** an edge beside a trail *)
Lemma trail_of_length {F} (g : graph F) t : forall x l, trail_of g x t = Some l -> length l = length t.
Proof.
  induction t as [|i t IH]; intros x l E; cbn in E; [by injection E as <-|]. destruct (_ !! x); [|done]. cbn in E. destruct (_ !! i) as [e|]; [|done]. cbn in E. destruct (_ !! e) as [y|]; [|done]. cbn in E.
  destruct (trail_of g (g_out y) t) as [l'|] eqn:El; [|done]. cbn in E. injection E as <-. cbn. by erewrite IH.
Qed.
Lemma beside {F} (s : aco F) t : (length t < length (g_edges (s_graph s)))%nat -> exists e, (e < length (g_edges (s_graph s)))%nat /\ edge_on s t e = false.
Proof.
  intros H. unfold edge_on. destruct (trail_of (s_graph s) 0 t) as [l|] eqn:El; [|exists 0%nat; split; [lia|done]]. apply trail_of_length in El.
  destruct (decide (Forall (fun e => e ∈ l.*1) (seq 0 (length (g_edges (s_graph s)))))) as [HF|HF].
  - exfalso. rewrite list.Forall_forall in HF. assert (Hs : seq 0 (length (g_edges (s_graph s))) ⊆+ l.*1) by (apply NoDup_submseteq; [apply NoDup_seq|done]).
    apply submseteq_length in Hs. rewrite seq_length, fmap_length in Hs. lia.
  - apply not_Forall_Exists in HF; [|intros x; apply _]. apply list.Exists_exists in HF as (e & He & Hn). apply elem_of_seq in He. exists e. split; [lia|]. by apply bool_decide_eq_false_2.
Qed.
