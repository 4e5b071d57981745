(** The roulette over the reals: an edge is taken with the probability of its pheromone. *)
From Coq Require Import Reals Lra.
From Verif Require Import BaseLemmas Sort_Model Sort_Proofs Mcts4_Proofs Gen4_Proofs Aco_Spec Aco_Proofs Aco2_Proofs Aco3_Proofs Aco4_Proofs Aco5_Proofs Aco6_Proofs Aco7_Proofs Aco8_Proofs.
Open Scope R_scope.
Notation total l := (foldr Rplus 0 l).

Lemma foldl_total (l : list R) a : foldl Rplus a l = a + total l.
Proof. revert a. induction l as [|x l IH]; intros a; cbn; [lra|]. rewrite IH. lra. Qed.
Lemma total_app (l1 l2 : list R) : total (l1 ++ l2) = total l1 + total l2.
Proof. induction l1 as [|x l IH]; cbn; [lra|]. rewrite IH. lra. Qed.
Lemma total_scale (l : list R) c : total ((fun x => x / c) <$> l) = total l / c.
Proof. induction l as [|x l IH]; [cbn; unfold Rdiv; lra|]. rewrite fmap_cons. cbn [foldr]. rewrite IH. unfold Rdiv. lra. Qed.
Lemma total_nonneg (l : list R) : Forall (fun x => 0 < x) l -> 0 <= total l.
Proof. induction 1; cbn; lra. Qed.
Lemma total_pos (l : list R) : Forall (fun x => 0 < x) l -> l <> [] -> 0 < total l.
Proof. intros H. destruct l as [|x l]; [done|]. intros _. apply list.Forall_cons in H as [H1 H2]. apply total_nonneg in H2. cbn. lra. Qed.
Lemma total_take_S (l : list R) i x : l !! i = Some x -> total (take (S i) l) = total (take i l) + x.
Proof. intros E. rewrite (take_S_r _ _ _ E), total_app. cbn. lra. Qed.
Lemma total_take_mono (l : list R) i j : Forall (fun x => 0 < x) l -> (i <= j)%nat -> total (take i l) <= total (take j l).
Proof.
  intros H Hij. replace j with (i + (j - i))%nat by lia. rewrite <- (take_drop i (take (i + (j - i)) l)), total_app, take_take, Nat.min_l by lia.
  pose proof (total_nonneg (drop i (take (i + (j - i)) l))) as Hn. rewrite <- Rplus_0_r at 1. apply Rplus_le_compat_l, Hn. by apply Forall_drop, Forall_take.
Qed.

Lemma roulette_R prob : Forall (fun x => 0 < x) prob -> forall m o r, (o + m = length prob)%nat -> (0 < m)%nat -> r <= total (drop o prob) ->
  exists i, roulette real_num prob (seq o m) r = Some (Some i) /\ (o <= i < o + m)%nat /\ r <= total (take (S i) prob) - total (take o prob) /\
    (i = o \/ total (take i prob) - total (take o prob) < r).
Proof.
  intros Hp. induction m as [|m IH]; intros o r Hl Hm Hr; [lia|]. cbn [seq roulette]. unfold rd. destruct (lookup_lt_is_Some_2 prob o ltac:(lia)) as [x Ex]. rewrite Ex.
  cbn [mbind option_bind]. cbn [n_le real_num n_flt n_sub]. case_bool_decide as Hc.
  - exists o. split; [done|]. split; [lia|]. rewrite (total_take_S _ _ _ Ex). split; [lra|by left].
  - rewrite (drop_S _ _ _ Ex) in Hr. cbn [foldr] in Hr. destruct m as [|m].
    { rewrite drop_ge in Hr by lia. cbn in Hr. lra. }
    destruct (IH (S o) (r - x) ltac:(lia) ltac:(lia) ltac:(lra)) as (i & -> & Hi & H1 & H2). exists i. split; [done|]. split; [lia|].
    rewrite (total_take_S _ _ _ Ex) in H1, H2. split; [lra|]. right. destruct H2 as [->|H2]; [rewrite (total_take_S _ _ _ Ex); lra|lra].
Qed.
Lemma mapM_zero (l : list R) : Forall (fun x => 0 < x < 1) l -> mapM (n_int real_num) l = Some (replicate (length l) 0%Z).
Proof.
  induction 1 as [|x l Hx _ IH]; [done|]. cbn [mapM]. rewrite IH. cbn [n_int real_num]. rewrite decide_True by lra. cbn [mbind option_bind length replicate]. do 2 f_equal.
  apply trunc_small. lra.
Qed.
Lemma choose_R phs r : Forall (fun x => 0 < x) phs -> phs <> [] -> r <= 1 ->
  exists i, choose real_num phs r = Some i /\ (i < length phs)%nat /\ r <= total (take (S i) phs) / total phs /\ (i = 0%nat \/ total (take i phs) / total phs < r).
Proof.
  intros Hp Hne Hr. pose proof (total_pos _ Hp Hne) as Ht. unfold choose. set (prob := probabilities real_num phs).
  assert (Ep : prob = (fun x => x / total phs) <$> phs).
  { unfold prob, probabilities. cbn [n_add n_z n_div n_flt real_num]. rewrite foldl_total. apply list_fmap_ext. intros i x _. cbn. by rewrite Rplus_0_l. }
  assert (Lp : length prob = length phs) by (by rewrite Ep, fmap_length).
  assert (Pp : Forall (fun x => 0 < x) prob).
  { rewrite Ep. apply Forall_fmap. eapply list.Forall_impl; [exact Hp|]. intros x Hx. cbn. apply Rdiv_lt_0_compat; done. }
  assert (T1 : total prob = 1) by (rewrite Ep, total_scale; field; lra).
  assert (L0 : (0 < length phs)%nat) by (destruct phs; [done|cbn; lia]).
  assert (Hints : exists ints, mapM (n_int real_num) prob = Some ints /\ sort_array 1 ints (seq 0 (length phs)) = Some (seq 0 (length phs))).
  { destruct (decide (length phs = 1%nat)) as [E1|E1].
    - rewrite E1. destruct prob as [|x [|y l]]; cbn in Lp; try (rewrite E1 in Lp; done). cbn in T1. assert (x = 1) as -> by lra. eexists. split.
      + cbn [mapM]. cbn [n_int real_num]. rewrite decide_True by lra. reflexivity.
      + reflexivity.
    - eexists. split; [apply mapM_zero|].
      + apply list.Forall_forall. intros x Hx. rewrite list.Forall_forall in Pp. split; [auto|]. apply elem_of_list_split in Hx as (l1 & l2 & El).
        rewrite El in T1, Lp, Pp. rewrite total_app in T1. cbn [foldr] in T1. rewrite app_length in Lp. cbn [length] in Lp.
        assert (P1 : Forall (fun x => 0 < x) l1) by (apply list.Forall_forall; intros y Hy; apply Pp; set_solver).
        assert (P2 : Forall (fun x => 0 < x) l2) by (apply list.Forall_forall; intros y Hy; apply Pp; set_solver).
        pose proof (total_nonneg _ P1). pose proof (total_nonneg _ P2). destruct l1 as [|y l1]; [destruct l2 as [|y l2]; [cbn in Lp; lia|]|].
        * pose proof (total_pos _ P2 ltac:(done)). lra.
        * pose proof (total_pos _ P1 ltac:(done)). lra.
      + apply sort_array_zeros; [|by rewrite replicate_length, seq_length]. by apply Forall_replicate. }
  destruct Hints as (ints & -> & E2). cbn [mbind option_bind]. rewrite E2. cbn [mbind option_bind].
  destruct (roulette_R prob Pp (length phs) 0 r ltac:(lia) ltac:(lia)) as (i & -> & Hi & H1 & H2); [rewrite drop_0, T1; done|]. cbn [mbind option_bind].
  exists i. cbn [take foldr] in H1, H2. split; [done|]. split; [lia|].
  assert (Etk : forall j, total (take j prob) = total (take j phs) / total phs) by (intros j; rewrite Ep, <- fmap_take; apply total_scale). rewrite !Etk in *.
  rewrite (take_0 phs) in H1, H2. cbn [foldr] in H1, H2. unfold Rdiv in *. split; [lra|]. destruct H2; [by left|right; lra].
Qed.
Lemma choose_R_iff phs r i : Forall (fun x => 0 < x) phs -> phs <> [] -> r <= 1 ->
  choose real_num phs r = Some i <-> (i < length phs)%nat /\ r <= total (take (S i) phs) / total phs /\ (i = 0%nat \/ total (take i phs) / total phs < r).
Proof.
  intros Hp Hne Hr. destruct (choose_R phs r Hp Hne Hr) as (j & E & Hj & H1 & H2). rewrite E. split.
  - intros E'. injection E' as <-. done.
  - intros (Hi & K1 & K2). f_equal. pose proof (total_pos _ Hp Hne) as Ht.
    destruct (Nat.lt_trichotomy j i) as [Hlt|[->|Hlt]]; [|done|]; exfalso.
    + destruct K2 as [->|K2]; [lia|]. assert (total (take (S j) phs) / total phs <= total (take i phs) / total phs); [|lra].
      apply Rmult_le_compat_r; [left; by apply Rinv_0_lt_compat|]. apply total_take_mono; [done|lia].
    + destruct H2 as [->|H2]; [lia|]. assert (total (take (S i) phs) / total phs <= total (take j phs) / total phs); [|lra].
      apply Rmult_le_compat_r; [left; by apply Rinv_0_lt_compat|]. apply total_take_mono; [done|lia].
Qed.

(** the pheromones that are offered at a node *)
Lemma walk_R_certain (g : graph R) ts r : adj g ts -> wf (length (g_nodes g)) ts -> r <= 1 ->
  (Forall (fun e => 0 < g_pher e) (g_edges g) -> certain real_num g (ByEdges r)) /\ (Forall (fun n => 0 < o_pher n) (g_nodes g) -> certain real_num g (ByNodes r)).
Proof.
  intros Ha Hw Hr. split; intros Hp x n En Ho; unfold next_index, rd; rewrite En; cbn [mbind option_bind]; rewrite decide_False by done.
  - destruct (edge_phers_ok g ts x n Ha En) as (phs & Ep & L). rewrite Ep. cbn [mbind option_bind].
    destruct (choose_R phs r) as (i & -> & Hi & _); [|by destruct phs, (o_outputs n)|done|exists i; split; [done|lia]].
    apply list.Forall_forall. intros y Hy. apply elem_of_list_lookup in Hy as [j Ej]. apply mapM_Some in Ep. destruct (Forall2_lookup_r _ _ _ _ _ Ep Ej) as (e & _ & Ee). cbn in Ee.
    destruct (rd (g_edges g) e) as [z|] eqn:Ez; [|done]. cbn in Ee. injection Ee as <-. rewrite list.Forall_forall in Hp. apply Hp. by eapply elem_of_list_lookup_2.
  - destruct (node_phers_ok g ts x n Ha Hw En) as (phs & Ep & L). rewrite Ep. cbn [mbind option_bind].
    destruct (choose_R phs r) as (i & -> & Hi & _); [|by destruct phs, (o_outputs n)|done|exists i; split; [done|lia]].
    apply list.Forall_forall. intros y Hy. apply elem_of_list_lookup in Hy as [j Ej]. apply mapM_Some in Ep. destruct (Forall2_lookup_r _ _ _ _ _ Ep Ej) as (e & _ & Ee). cbn in Ee.
    destruct (rd (g_edges g) e) as [z|] eqn:Ez; [|done]. cbn in Ee. destruct (rd (g_nodes g) (g_out z)) as [z'|] eqn:Ez'; [|done]. cbn in Ee. injection Ee as <-.
    rewrite list.Forall_forall in Hp. apply Hp. by eapply elem_of_list_lookup_2.
Qed.

(** any trail is walked for some random numbers *)
Lemma edge_phers_pos (g : graph R) n phs : Forall (fun e => 0 < g_pher e) (g_edges g) -> edge_phers g n = Some phs -> Forall (fun x => 0 < x) phs.
Proof.
  intros Hp Ep. apply list.Forall_forall. intros y Hy. apply elem_of_list_lookup in Hy as [j Ej]. apply mapM_Some in Ep. destruct (Forall2_lookup_r _ _ _ _ _ Ep Ej) as (e & _ & Ee).
  cbn in Ee. destruct (rd (g_edges g) e) as [z|] eqn:Ez; [|done]. cbn in Ee. injection Ee as <-. rewrite list.Forall_forall in Hp. apply Hp. by eapply elem_of_list_lookup_2.
Qed.
Lemma cum_range phs i : Forall (fun x => 0 < x) phs -> phs <> [] -> 0 <= total (take i phs) / total phs <= 1.
Proof.
  intros Hp Hne. pose proof (total_pos _ Hp Hne) as Ht. assert (H1 : 0 <= total (take i phs)) by (apply total_nonneg; by apply Forall_take).
  assert (H2 : total (take i phs) <= total phs).
  { rewrite <- (take_drop i phs) at 2. rewrite total_app. pose proof (total_nonneg (drop i phs) ltac:(by apply Forall_drop)). lra. }
  split; [apply Rmult_le_pos; [done|left; by apply Rinv_0_lt_compat]|]. apply Rmult_le_reg_r with (total phs); [done|]. unfold Rdiv. rewrite Rmult_assoc, Rinv_l by lra. lra.
Qed.
Lemma choose_hits phs i : Forall (fun x => 0 < x) phs -> (i < length phs)%nat -> exists r, 0 <= r <= 1 /\ choose real_num phs r = Some i.
Proof.
  intros Hp Hi. assert (Hne : phs <> []) by (intros ->; cbn in Hi; lia). pose proof (total_pos _ Hp Hne) as Ht. exists (total (take (S i) phs) / total phs).
  split; [by apply cum_range|]. apply choose_R_iff; [done|done|by apply cum_range|]. split; [done|]. split; [lra|]. right.
  destruct (lookup_lt_is_Some_2 _ _ Hi) as [x Ex]. rewrite (total_take_S _ _ _ Ex). assert (0 < x) by (rewrite list.Forall_forall in Hp; apply Hp; by eapply elem_of_list_lookup_2).
  apply Rmult_lt_compat_r; [by apply Rinv_0_lt_compat|lra].
Qed.
Lemma trail_rnd k ts (s : aco R) : inv real_num k ts s -> Forall (fun e => 0 < g_pher e) (g_edges (s_graph s)) -> forall t p r x ls fuel size,
  rows_ k !! p = Some r -> x ∈ r.2 -> length t = (length (rows_ k) - 1 - p)%nat -> steps ts x t = Some ls -> (length t < fuel)%nat ->
  exists rnd, (forall m, 0 <= rnd m <= 1) /\ forall rnd', (forall m, (size <= m)%nat -> rnd' m = rnd m) -> walk real_num fuel (s_graph s) (fun m => ByEdges (rnd' m)) size x = Some t.
Proof.
  intros H Hpos. pose proof (inv_by_rows _ _ _ _ H) as Hby. induction t as [|i t IH]; intros p r x ls fuel size Hp Hx L E Hf; (destruct fuel as [|fuel]; [cbn in Hf; lia|]).
  - exists (fun _ => 0). split; [intros; lra|]. intros rnd' _. cbn [walk]. destruct (node_rows _ _ _ _ _ _ Hby Hp Hx) as [n En].
    pose proof (outputs_rows _ _ _ _ _ _ _ Hby Hp Hx En) as Lo. rewrite (lookup_ge_None_2 (rows_ k)) in Lo by (cbn [length] in L; lia).
    unfold next_index, rd. rewrite En. cbn [mbind option_bind]. rewrite decide_True by (by destruct (o_outputs n)). done.
  - cbn [steps] in E. destruct (from_ x ts !! i) as [l|] eqn:El; [|done]. cbn [mbind option_bind] in E. destruct (steps ts l.1.2 t) as [ls'|] eqn:E'; [|done].
    destruct (proj2 Hby p r x Hp Hx) as [Ef Hlt]. assert (Ht := elem_of_list_lookup_2 _ _ _ El). rewrite Ef in Ht.
    destruct (rows_ k !! S p) as [r'|] eqn:Hp'; [|by apply not_elem_of_nil in Ht]. cbn in Ht. apply elem_of_list_fmap in Ht as (c & -> & Hc). cbn in E'. clear E.
    cbn [length] in L, Hf. destruct (IH (S p) r' c ls' fuel (S size) Hp' Hc ltac:(lia) E' ltac:(lia)) as (rnd & Hr & Hw).
    destruct (node_rows _ _ _ _ _ _ Hby Hp Hx) as [n En]. destruct (edge_phers_ok (s_graph s) ts x n (i_adj _ _ _ _ H) En) as (phs & Ep & Lph).
    pose proof (outputs_length _ _ _ _ (i_adj _ _ _ _ H) En) as Lo. apply lookup_lt_Some in El as Hi.
    destruct (choose_hits phs i) as (r0 & Hr0 & Er0); [by eapply edge_phers_pos|lia|].
    exists (fun m => if decide (m = size) then r0 else rnd m). split; [intros m; by destruct (decide _)|]. intros rnd' Hr'. cbn [walk].
    unfold next_index, rd. rewrite En. cbn [mbind option_bind]. rewrite decide_False by (intros Z; rewrite Z in Lo; cbn in Lo; lia). rewrite Ep. cbn [mbind option_bind].
    rewrite Hr' by lia. rewrite decide_True by done. rewrite Er0. cbn [mbind option_bind]. rewrite (child_adj _ ts), El by (apply (i_adj _ _ _ _ H) || done). cbn [fmap option_fmap option_map mbind option_bind fst snd].
    rewrite Hw; [done|]. intros m Hm. rewrite Hr' by lia. rewrite decide_False by lia. done.
Qed.
