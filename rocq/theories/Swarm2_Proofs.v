(** What each call of the particle swarm does to the nodes. *)
From Coq Require Import Reals Lra.
From Verif Require Import BaseLemmas Aco_Spec Aco_Proofs Aco2_Proofs Aco3_Proofs Aco4_Proofs Aco5_Proofs Aco6_Proofs Aco7_Proofs Aco8_Proofs Pher_Spec Pher_Proofs Pher2_Proofs Swarm_Spec Swarm_Proofs.
Ltac bnd H x E := match type of H with mbind _ ?o = _ => destruct o as [x|] eqn:E; [|done] end; cbn [mbind option_bind] in H.
Open Scope R_scope.
Open Scope nat_scope.
Implicit Types (g : graph R) (s : aco R) (n : node R).
Local Notation O := real_num.

Lemma nodes_perm k ts s : inv O k ts s -> s_nodes s ≡ₚ seq 0 (length (g_nodes (s_graph s))).
Proof. intros H. rewrite (inv_len O k ts s H). apply (i_nodes _ _ _ _ H). Qed.
Lemma edges_perm k ts s : inv O k ts s -> s_edges s ≡ₚ seq 0 (length (g_edges (s_graph s))).
Proof. intros H. rewrite (inv_elen O k ts s H). apply (i_edges _ _ _ _ H). Qed.

(** the fitness *)
Lemma fold_sum (l : list R) x : foldl (n_add O) x l = (x + foldr Rplus 0 l)%R.
Proof. revert x. induction l as [|y l IH]; intros x; cbn [foldl foldr]; [lra|]. rewrite IH. cbn. lra. Qed.
Definition fit (s : aco R) (u : nat) (n : node R) : node R := if is_weight (o_body n) then set_input (inflow s n) n else n.
Lemma fitness_ok k ts s : inv O k ts s -> exists g, pso_function O s = Some (with_graph s g) /\ g_edges g = g_edges (s_graph s) /\ g_nodes g = imap (fit s) (g_nodes (s_graph s)).
Proof.
  intros H. pose proof (nodes_perm k ts s H) as HP. destruct (perm_seq_ok _ _ HP) as [HN HF]. unfold pso_function.
  rewrite (each_local _ (fit s) (s_nodes s) (s_graph s) HN HF).
  2:{ intros D x n Hx HD En. assert (Er : rd (g_nodes (upto (fit s) D (s_graph s))) x = Some n). { unfold rd. rewrite upto_lookup, En. cbn. by rewrite decide_False. }
      rewrite Er. cbn [mbind option_bind]. assert (Ef : fit s x n = if is_weight (o_body n) then set_input (inflow s n) n else n) by done. rewrite Ef. clear Ef. destruct (is_weight (o_body n)) eqn:Ew.
      - assert (Em : mapM (fun e => y ← rd (g_edges (upto (fit s) D (s_graph s))) e; Some (g_pher y)) (o_inputs n) = Some (omap (fun e => g_pher <$> g_edges (s_graph s) !! e) (o_inputs n))).
        { cbn [g_edges upto]. destruct (proj2 (i_adj _ _ _ _ H) x n En) as [_ Ei]. assert (Hl : Forall (fun e => is_Some (g_edges (s_graph s) !! e)) (o_inputs n)).
          { apply list.Forall_forall. intros e He. rewrite Ei in He. apply elem_idx_in in He as (t & Et & _). apply lookup_lt_is_Some_2. rewrite (inv_elen O k ts s H). by eapply lookup_lt_Some. }
          clear -Hl. unfold rd. induction (o_inputs n) as [|e l IH]; [done|]. apply list.Forall_cons in Hl as [[y Hy] Hl]. cbn [mapM omap list_omap]. rewrite Hy. cbn [mbind option_bind fmap option_fmap option_map]. rewrite (IH Hl). done. }
        rewrite Em. cbn [mbind option_bind]. unfold on_node. rewrite Er. cbn [mbind option_bind]. rewrite wr_Some. 2:{ cbn; rewrite imap_length; by eapply lookup_lt_Some. }
        cbn [mbind option_bind]. rewrite fold_sum. cbn [upto g_edges]. do 4 f_equal. unfold inflow. cbn. lra.
      - f_equal. rewrite list_insert_id; [done|]. rewrite upto_lookup, En. cbn. by rewrite decide_False. }
  cbn [mbind option_bind]. exists (upto (fit s) (s_nodes s) (s_graph s)). split; [done|]. split; [done|]. cbn. apply imap_ext. intros i x Hi. rewrite decide_True; [done|]. rewrite HP. apply elem_of_seq. apply lookup_lt_Some in Hi. lia.
Qed.
Lemma fitness_nodes_ok k ts s : inv O k ts s -> exists g, pso_function_nodes s = Some (with_graph s g) /\ g_edges g = g_edges (s_graph s) /\ g_nodes g = (fun n => if is_weight (o_body n) then set_input (o_pher n) n else n) <$> g_nodes (s_graph s).
Proof. intros H. unfold pso_function_nodes. rewrite each_all_nodes by by eapply nodes_perm. cbn [mbind option_bind]. eexists. split; [reflexivity|]. done. Qed.
Definition learn (n : node R) : node R := if is_weight (o_body n) && n_lt O (o_personal n) (o_input n) then set_personal (o_input n) (weight_of O n) n else n.
Lemma personal_ok k ts s : inv O k ts s -> exists g, best_personal O s = Some (with_graph s g) /\ g_edges g = g_edges (s_graph s) /\ g_nodes g = learn <$> g_nodes (s_graph s).
Proof. intros H. unfold best_personal. rewrite each_all_nodes by by eapply nodes_perm. cbn [mbind option_bind]. eexists. split; [reflexivity|]. done. Qed.

(** the best of a row *)
Lemma best_of_row_ok g row : Forall (fun u => exists n, g_nodes g !! u = Some n /\ is_weight (o_body n) = true /\ (0 <= o_personal n)%R) row -> row <> [] ->
  exists x m j nm, best_of_row O g row = Some (x, Some m) /\ row !! j = Some m /\ g_nodes g !! m = Some nm /\ o_personal nm = x /\
    (forall u n, u ∈ row -> g_nodes g !! u = Some n -> (o_personal n <= x)%R) /\ (forall j' u n, j' < j -> row !! j' = Some u -> g_nodes g !! u = Some n -> (o_personal n < x)%R).
Proof.
  intros H Hne. assert (P : (row = [] /\ best_of_row O g row = Some (n_z O (-1), None)) \/ exists x m j nm, best_of_row O g row = Some (x, Some m) /\ row !! j = Some m /\ g_nodes g !! m = Some nm /\ o_personal nm = x /\
    (forall u n, u ∈ row -> g_nodes g !! u = Some n -> (o_personal n <= x)%R) /\ (forall j' u n, j' < j -> row !! j' = Some u -> g_nodes g !! u = Some n -> (o_personal n < x)%R)); [|destruct P as [[? _]|P]; done].
  clear Hne. induction row as [|u row IH] using rev_ind; [by left|]. right. apply Forall_app in H as [H Hu]. apply list.Forall_cons in Hu as [(n & En & Ew & Hn) _]. unfold best_of_row. rewrite foldl_app. fold (best_of_row O g row). cbn [foldl].
  destruct (IH H) as [[-> Eb]|(x & m & j & nm & Eb & Ej & Em & Ex & Hall & Hbef)]; rewrite Eb; cbn [mbind option_bind]; unfold rd; rewrite En; cbn [mbind option_bind fst snd].
  - rewrite n_ltb, bool_decide_eq_true_2 by (cbn; lra). rewrite Ew. exists (o_personal n), u, 0, n. split; [done|]. split; [done|]. split; [done|]. split; [done|]. split; [|intros; lia].
    intros v n' Hv Hn'. cbn [app] in Hv. apply elem_of_list_singleton in Hv as ->. replace n' with n by congruence. lra.
  - rewrite n_ltb. destruct (decide (x < o_personal n)%R) as [Hlt|Hge].
    + rewrite bool_decide_eq_true_2 by done. rewrite Ew. exists (o_personal n), u, (length row), n. split; [done|]. split; [by apply list_lookup_middle|]. split; [done|]. split; [done|]. split.
      * intros v n' Hv Hn'. apply elem_of_app in Hv as [Hv|Hv]; [specialize (Hall v n' Hv Hn'); lra|]. apply elem_of_list_singleton in Hv as ->. replace n' with n by congruence. lra.
      * intros j' v n' Hj Hv Hn'. rewrite lookup_app_l in Hv by done. apply elem_of_list_lookup_2 in Hv. specialize (Hall v n' Hv Hn'). lra.
    + rewrite bool_decide_eq_false_2 by done. exists x, m, j, nm. split; [done|]. split; [by apply lookup_app_l_Some|]. split; [done|]. split; [done|]. split.
      * intros v n' Hv Hn'. apply elem_of_app in Hv as [Hv|Hv]; [by eapply Hall|]. apply elem_of_list_singleton in Hv as ->. replace n' with n by congruence. lra.
      * intros j' v n' Hj Hv Hn'. rewrite lookup_app_l in Hv by (apply lookup_lt_Some in Ej; lia). by eapply Hbef.
Qed.
(** the fields that best_of_row reads *)
Definition pkey (n : node R) := (is_weight (o_body n), o_personal n).
Lemma best_of_row_key g g' row : (forall u, u ∈ row -> pkey <$> g_nodes g' !! u = pkey <$> g_nodes g !! u) -> best_of_row O g' row = best_of_row O g row.
Proof.
  intros H. unfold best_of_row. generalize (Some (n_z O (-1), @None nat)). induction row as [|u row IH]; intros st; [done|]. cbn [foldl]. rewrite IH by (intros v Hv; apply H; by right). f_equal. destruct st as [st|]; [|done]. cbn [mbind option_bind].
  specialize (H u ltac:(left)). unfold rd. destruct (g_nodes g' !! u) as [n'|], (g_nodes g !! u) as [n|]; try done. cbn in H. injection H as Hw Hp. cbn [mbind option_bind]. by rewrite Hw, Hp.
Qed.
Definition share (row : list nat) g : option (graph R) := b ← best_of_row O g row; each (on_node (set_global b.1 b.2)) row g.
Lemma shares_ok g Rs : NoDup (concat Rs) -> Forall (fun row => row <> []) Rs ->
  Forall (fun u => exists n, g_nodes g !! u = Some n /\ is_weight (o_body n) = true /\ (0 <= o_personal n)%R) (concat Rs) ->
  exists g', each share Rs g = Some g' /\ g_edges g' = g_edges g /\ length (g_nodes g') = length (g_nodes g) /\
    (forall u, u ∉ concat Rs -> g_nodes g' !! u = g_nodes g !! u) /\
    (forall row u n, row ∈ Rs -> u ∈ row -> g_nodes g !! u = Some n -> exists b, best_of_row O g row = Some b /\ g_nodes g' !! u = Some (set_global b.1 b.2 n)).
Proof.
  intros HN Hne HF. induction Rs as [|row Rs IH] using rev_ind.
  - exists g. split; [done|]. split; [done|]. split; [done|]. split; [done|]. intros row u n Hr. by apply elem_of_nil in Hr.
  - rewrite concat_app in HN, HF. cbn [concat] in HN, HF. rewrite app_nil_r in HN, HF. apply NoDup_app in HN as (HN & HD & HNr). apply Forall_app in HF as [HF HFr]. apply Forall_app in Hne as [Hne Hr]. apply list.Forall_cons in Hr as [Hr _].
    destruct (IH HN Hne HF) as (g1 & E1' & Ee & El & Hout & Hin). rewrite each_app, E1'. cbn [mbind option_bind each].
    assert (Hsame : forall u, u ∈ row -> g_nodes g1 !! u = g_nodes g !! u) by (intros u Hu; apply Hout; intros Z; by apply (HD u Z)).
    unfold share at 1. rewrite (best_of_row_key g g1 row) by (intros u Hu; by rewrite Hsame). destruct (best_of_row_ok g row HFr Hr) as (x & m & j & nm & Eb & _). rewrite Eb. cbn [mbind option_bind fst snd].
    rewrite each_node. 2: done. 2:{ apply list.Forall_forall. intros u Hu. rewrite list.Forall_forall in HFr. destruct (HFr u Hu) as (n & En & _). rewrite El. by eapply lookup_lt_Some. }
    cbn [mbind option_bind]. eexists. split; [reflexivity|]. cbn [g_edges g_nodes]. split; [done|]. split; [by rewrite imap_length|]. split.
    + intros u Hu. rewrite concat_app in Hu. cbn [concat] in Hu. rewrite app_nil_r, elem_of_app in Hu. rewrite list_lookup_imap, Hout by tauto. destruct (g_nodes g !! u); [|done]. cbn. rewrite decide_False by tauto. done.
    + intros row' u n Hrow Hu En. rewrite list_lookup_imap. apply elem_of_app in Hrow as [Hrow|Hrow].
      * destruct (Hin row' u n Hrow Hu En) as (b & Eb' & En'). exists b. split; [done|]. rewrite En'. cbn. rewrite decide_False; [done|]. apply HD. apply elem_of_list_In, in_concat. exists row'. split; by apply elem_of_list_In.
      * apply elem_of_list_singleton in Hrow as ->. exists (x, Some m). split; [done|]. rewrite (Hsame u Hu), En. cbn. by rewrite decide_True.
Qed.

(** the step *)
Definition fly (w : swarm R) (r1 r2 : nat -> R) (s : aco R) (u : nat) (n : node R) : node R :=
  match o_gparams n with
  | Some p => match g_nodes (s_graph s) !! p with
    | Some m => if differ O (o_best m) (weight_of O n) then
        let v := velocity w (r1 u) (r2 u) (o_v n) (weight_of O n) (o_best n) (o_best m) in set_weight (weight_of O n + v)%R (set_v v n)
      else n
    | None => n end
  | None => n end.
Lemma fly_best w r1 r2 s u n : o_best (fly w r1 r2 s u n) = o_best n.
Proof. unfold fly. destruct (o_gparams n) as [p|]; [|done]. destruct (_ !! p); [|done]. by destruct (differ _ _ _). Qed.
Lemma velocity_eq w v : (0 <= w_vmax w)%R ->
  (let v := if n_lt O (w_vmax w) v then w_vmax w else v in if n_lt O v (n_sub O (n_z O 0) (w_vmax w)) then n_sub O (n_z O 0) (w_vmax w) else v) = Rmax (- w_vmax w) (Rmin (w_vmax w) v).
Proof.
  intros H. cbv zeta. rewrite !n_ltb. cbn. unfold Rmax, Rmin. repeat case_bool_decide; repeat destruct (Rle_dec _ _); cbn in *; lra.
Qed.
Lemma pso_ok k ts s w r1 r2 : setup_ok O k -> inv O k ts s -> has_leaders k s -> (0 <= w_vmax w)%R ->
  exists g, update_pso O w r1 r2 s = reset_flags (with_graph s g) /\ g = upto (fly w r1 r2 s) (concat (rows_of 1 (plan k))) (s_graph s).
Proof.
  intros Hk H HL Hv. eexists. split; [|reflexivity]. unfold update_pso. rewrite (swarm_loop O k ts s _ Hk H), each_concat.
  assert (HP : forall u, u ∈ concat (rows_of 1 (plan k)) -> is_particle k s u) by (intros u Hu; by apply (is_particle_rows O k ts s)). destruct (rows_of_bounds (plan k) 1) as [_ HN].
  rewrite (each_local _ (fly w r1 r2 s)); [done|done| |].
  - apply list.Forall_forall. intros u Hu. destruct (particle_in_range O k ts s u H Hk (HP u Hu)) as (n & ? & ? & ? & ? & En & _). by eapply lookup_lt_Some.
  - intros D x n Hx HD En. assert (Er : rd (g_nodes (upto (fly w r1 r2 s) D (s_graph s))) x = Some n). { unfold rd. rewrite upto_lookup, En. cbn. by rewrite decide_False. }
    unfold pso_step. rewrite Er. cbn [mbind option_bind]. destruct (HL x n (HP x Hx) En) as (p & m & Ep & Em). unfold at_ in Em. rewrite Ep. cbn [mbind option_bind].
    assert (Erp : exists m', rd (g_nodes (upto (fly w r1 r2 s) D (s_graph s))) p = Some m' /\ o_best m' = o_best m). { unfold rd. rewrite upto_lookup, Em. cbn. eexists. split; [reflexivity|]. destruct (decide _); [apply fly_best|done]. }
    destruct Erp as (m' & Erp & Ebm). rewrite Erp. cbn [mbind option_bind]. rewrite Ebm.
    assert (Ef : fly w r1 r2 s x n = if differ O (o_best m) (weight_of O n) then let v := velocity w (r1 x) (r2 x) (o_v n) (weight_of O n) (o_best n) (o_best m) in set_weight (weight_of O n + v)%R (set_v v n) else n) by (unfold fly; by rewrite Ep, Em). rewrite Ef. clear Ef. destruct (differ O (o_best m) (weight_of O n)) eqn:Ed.
    + rewrite (on_node_Some _ _ _ n). 2:{ exact Er. } f_equal. f_equal. f_equal. unfold velocity. rewrite <- (velocity_eq w _ Hv). done.
    + f_equal. rewrite list_insert_id; [done|]. exact Er.
Qed.
Lemma reset_ok k ts s : inv O k ts s -> reset_flags s = Some (with_graph s (Graph (set_flag false <$> g_nodes (s_graph s)) (set_eflag false <$> g_edges (s_graph s)))).
Proof. intros H. unfold reset_flags. rewrite each_all_nodes by by eapply nodes_perm. cbn [mbind option_bind]. rewrite each_all_edges by by eapply edges_perm. done. Qed.
Lemma upto_same h D g : (forall u n, node_key (h u n) = node_key n) -> same g (upto h D g).
Proof. intros Hh. split; [|done]. cbn. apply list_eq. intros i. rewrite !list_lookup_fmap, list_lookup_imap. destruct (g_nodes g !! i); [|done]. cbn. f_equal. destruct (decide _); [apply Hh|done]. Qed.
