(** C62: the particle swarm of the ant-colony search.  Exact arithmetic. *)
From Coq Require Import Reals Lra.
From Verif Require Import BaseLemmas Aco_Spec Aco_Proofs Aco2_Proofs Aco3_Proofs Aco4_Proofs Aco5_Proofs Aco6_Proofs Aco7_Proofs Aco8_Proofs Pher_Spec Pher_Proofs Pher2_Proofs Pher_Props Swarm_Spec Swarm_Proofs Swarm2_Proofs Swarm3_Proofs Swarm4_Proofs.
Ltac bnd H x E := match type of H with mbind _ ?o = _ => destruct o as [x|] eqn:E; [|done] end; cbn [mbind option_bind] in H.
Open Scope R_scope.
Local Notation O := real_num.

(** calculate_pso_function_per_node: the fitness of a candidate is the pheromone of the edges into it; nothing else changes *)
Theorem fitness_rule k s : setup_ok O k -> reached O k s -> exists s', run_call O Fitness s = Some s' /\
  (forall u n, is_particle k s u -> at_ s u = Some n -> exists n', at_ s' u = Some n' /\ o_input n' = inflow s n /\ o_body n' = o_body n /\ o_pher n' = o_pher n /\ o_personal n' = o_personal n /\ o_best n' = o_best n /\ o_gparams n' = o_gparams n /\ o_v n' = o_v n) /\
  (forall u, ~ is_particle k s u -> at_ s' u = at_ s u) /\ g_edges (s_graph s') = g_edges (s_graph s).
Proof.
  intros Hk Hr. destruct (reached_inv O k s Hk Hr) as [ts H]. destruct (fitness_ok k ts s H) as (g & E & Ee & En). exists (with_graph s g). split; [exact E|]. split; [|split; [|done]].
  - intros u n Hu Hn. destruct (particle_in_range O k ts s u H Hk Hu) as (n' & a & b & c & x & Hn' & Eb). assert (n' = n) as -> by congruence. unfold at_ in *. cbn. rewrite En, list_lookup_imap, Hn. cbn. eexists. split; [reflexivity|]. unfold fit. rewrite Eb. cbn. by rewrite Eb.
  - intros u Hu. unfold at_. cbn. rewrite En, list_lookup_imap. destruct (g_nodes (s_graph s) !! u) as [n|] eqn:Hn; [|done]. cbn. unfold fit. destruct (is_weight _) eqn:Ew; [|done]. by destruct (Hu (weight_is_particle O k ts s u n H Hk Hn Ew)).
Qed.
(** calculate_pso_function_per_node_according_to_nodes: its own pheromone *)
Theorem fitness_nodes_rule k s : setup_ok O k -> reached O k s -> exists s', run_call O FitnessNodes s = Some s' /\ (forall u, ~ is_particle k s u -> at_ s' u = at_ s u) /\ g_edges (s_graph s') = g_edges (s_graph s) /\
  forall u n, is_particle k s u -> at_ s u = Some n -> exists n', at_ s' u = Some n' /\ o_input n' = o_pher n /\ o_body n' = o_body n /\ o_pher n' = o_pher n /\ o_personal n' = o_personal n /\ o_best n' = o_best n /\ o_gparams n' = o_gparams n /\ o_v n' = o_v n.
Proof.
  intros Hk Hr. destruct (reached_inv O k s Hk Hr) as [ts H]. destruct (fitness_nodes_ok k ts s H) as (g & E & Ee & En). exists (with_graph s g). split; [exact E|]. split; [|split; [done|]].
  { intros u Hu. unfold at_. cbn. rewrite En, list_lookup_fmap. destruct (g_nodes (s_graph s) !! u) as [n|] eqn:Hn; [|done]. cbn. destruct (is_weight _) eqn:Ew; [|done]. by destruct (Hu (weight_is_particle O k ts s u n H Hk Hn Ew)). }
  intros u n Hu Hn. destruct (particle_in_range O k ts s u H Hk Hu) as (n' & a & b & c & x & Hn' & Eb). assert (n' = n) as -> by congruence. unfold at_ in *. cbn. rewrite En, list_lookup_fmap, Hn. cbn. eexists. split; [reflexivity|]. rewrite Eb. cbn. by rewrite Eb.
Qed.
(** set_best_personal_node_fitness_pso: a candidate remembers its best fitness and the place where it had it *)
Theorem personal_rule k s : setup_ok O k -> reached O k s -> exists s', run_call O Personal s = Some s' /\ (forall u, ~ is_particle k s u -> at_ s' u = at_ s u) /\ g_edges (s_graph s') = g_edges (s_graph s) /\
  forall u n a b c x, is_particle k s u -> at_ s u = Some n -> o_body n = Weight a b c x -> exists n', at_ s' u = Some n' /\ o_body n' = o_body n /\ o_gparams n' = o_gparams n /\ o_v n' = o_v n /\ o_input n' = o_input n /\
    o_personal n' = Rmax (o_personal n) (o_input n) /\ (o_personal n < o_input n -> o_best n' = x) /\ (o_input n <= o_personal n -> o_best n' = o_best n).
Proof.
  intros Hk Hr. destruct (reached_inv O k s Hk Hr) as [ts H]. destruct (personal_ok k ts s H) as (g & E & Ee & En). exists (with_graph s g). split; [exact E|]. split; [|split; [done|]].
  { intros u Hu. unfold at_. cbn. rewrite En, list_lookup_fmap. destruct (g_nodes (s_graph s) !! u) as [n|] eqn:Hn; [|done]. cbn. unfold learn. destruct (is_weight _) eqn:Ew; [|done]. by destruct (Hu (weight_is_particle O k ts s u n H Hk Hn Ew)). }
  intros u n a b c x Hu Hn Eb. unfold at_ in *. cbn. rewrite En, list_lookup_fmap, Hn. cbn. eexists. split; [reflexivity|]. unfold learn, weight_of. rewrite Eb. cbn [is_weight andb]. rewrite n_ltb. case_bool_decide as Hlt; cbn; rewrite ?Eb.
  - repeat (split; [done|]). split; [rewrite Rmax_right by lra; done|]. split; [done|]. intros; lra.
  - repeat (split; [done|]). split; [rewrite Rmax_left by lra; done|]. split; [intros; lra|done].
Qed.
(** no call whatever makes a candidate forget: the best fitness never falls, and the place where it was had changes only when it rises *)
Theorem the_best_is_never_forgotten k s c s' u n : setup_ok O k -> reached O k s -> run_call O c s = Some s' -> at_ s u = Some n ->
  exists n', at_ s' u = Some n' /\ o_personal n <= o_personal n' /\ (o_personal n' = o_personal n -> o_best n' = o_best n).
Proof. intros Hk Hr E Hn. destruct (reached_clear O k s Hk Hr) as (ts & H & Hc). exact (rel_at better s s' u n (run_call_better k ts c s s' H Hc E) Hn). Qed.
(** only the swarm and the program move the candidates *)
Theorem candidates_stay k s c s' i q j : setup_ok O k -> reached O k s -> run_call O c s = Some s' -> (forall w r1 r2, c <> Swarm_step w r1 r2) -> (forall f, c <> Move f) -> candidate s' i q j = candidate s i q j.
Proof.
  intros Hk Hr E N1 N2. destruct (reached_clear O k s Hk Hr) as (ts & H & Hc). pose proof (run_call_body k ts c s s' N1 N2 H Hc E) as HR. pose proof (run_call_inv O k ts c s s' H E) as H'.
  unfold candidate. rewrite (i_widths _ _ _ _ H), (i_widths _ _ _ _ H'), (i_layers _ _ _ _ H), (i_layers _ _ _ _ H'). destruct (k_widths k !! i) as [w|]; [|done]. cbn [mbind option_bind]. destruct (ids_all 1 (plan k) !! i) as [ids|]; [|done]. cbn [mbind option_bind].
  destruct (ids !! _) as [u|]; [|done]. cbn [mbind option_bind]. destruct (g_nodes (s_graph s) !! u) as [n|] eqn:En.
  - destruct (rel_at _ s s' u n HR En) as (n' & En' & Eb). unfold at_ in En'. rewrite En'. cbn. by rewrite Eb.
  - destruct (g_nodes (s_graph s') !! u) as [n'|] eqn:En'; [|done]. destruct (Forall2_lookup_r _ _ _ _ _ HR En') as (n & Z & _). congruence.
Qed.
(** set_best_global_node_fitness_pso_according_to_nodes: all the candidates of a weight follow the first of those with the best fitness *)
Theorem global_rule k s : setup_ok O k -> reached O k s -> exists s', run_call O GlobalNodes s = Some s' /\ has_leaders k s' /\
  (forall u, ~ is_particle k s u -> at_ s' u = at_ s u) /\ g_edges (s_graph s') = g_edges (s_graph s) /\
  forall i q c0, in_space k i q c0 -> exists j m nm, in_space k i q j /\ particle s i q j = Some m /\ at_ s m = Some nm /\
    forall c u n, in_space k i q c -> particle s i q c = Some u -> at_ s u = Some n -> o_personal n <= o_personal nm /\ ((c < j)%nat -> o_personal n < o_personal nm) /\
      exists n', at_ s' u = Some n' /\ o_gparams n' = Some m /\ o_global n' = o_personal nm /\ o_body n' = o_body n /\ o_personal n' = o_personal n /\ o_best n' = o_best n /\ o_v n' = o_v n /\ o_input n' = o_input n.
Proof.
  intros Hk Hr. destruct (reached_inv O k s Hk Hr) as [ts H]. destruct (global_ok k ts s Hk H (reached_personal k s Hk Hr)) as (g & E & Ee & Hout & Hin). exists (with_graph s g). split; [exact E|]. split.
  - intros u n' (i & q & c & Hsp & Hp) Hn'. assert (Hsp' := Hsp). apply (in_space_plan O k i q c Hk) in Hsp' as (p & Ep & Hq & Hc). destruct (Hin i q p Ep Hq) as (j & m & nm & Hj & Em & Enm & Hall).
    assert (Hp' : particle s i q c = Some u) by exact Hp. destruct (particle_in_range O k ts s u H Hk) as (n & _ & _ & _ & _ & En & _); [by exists i, q, c|]. destruct (Hall c u n Hc Hp' En) as (_ & _ & Q).
    destruct (Hall j m nm Hj Em Enm) as (_ & _ & Qm). unfold at_ in Hn'. cbn in Hn'. rewrite Q in Hn'. injection Hn' as <-. exists m, (set_global (o_personal nm) (Some m) nm). done.
  - split; [exact Hout|]. split; [exact Ee|]. intros i q c0 Hsp. apply (in_space_plan O k i q c0 Hk) in Hsp as (p & Ep & Hq & Hc0). destruct (Hin i q p Ep Hq) as (j & m & nm & Hj & Em & Enm & Hall). exists j, m, nm.
    split; [apply (in_space_plan O k i q j Hk); eauto|]. split; [done|]. split; [done|]. intros c u n Hsp Hu En. apply (in_space_plan O k i q c Hk) in Hsp as (p' & Ep' & _ & Hc). assert (p' = p) as -> by congruence.
    destruct (Hall c u n Hc Hu En) as (A & B & C). split; [done|]. split; [done|]. eexists. split; [exact C|]. done.
Qed.
(** the leaders change only there *)
Theorem leaders_stay k s c s' u n : setup_ok O k -> reached O k s -> run_call O c s = Some s' -> c <> Global -> c <> GlobalNodes -> at_ s u = Some n -> exists n', at_ s' u = Some n' /\ o_gparams n' = o_gparams n /\ o_global n' = o_global n.
Proof. intros Hk Hr E N1 N2 Hn. destruct (reached_clear O k s Hk Hr) as (ts & H & Hc). exact (rel_at _ s s' u n (run_call_leader k ts c s s' N1 N2 H Hc E) Hn). Qed.

(** update_pso_nodes runs exactly when every candidate has a leader *)
Theorem step_runs_iff_leaders k s w r1 r2 : setup_ok O k -> reached O k s -> 0 <= w_vmax w -> (exists s', run_call O (Swarm_step w r1 r2) s = Some s') <-> has_leaders k s.
Proof.
  intros Hk Hr Hv. destruct (reached_inv O k s Hk Hr) as [ts H]. split; [intros [s' E]; by eapply step_leaders|]. intros HL. destruct (pso_ok k ts s w r1 r2 Hk H HL Hv) as (g & E & ->). cbn [run_call]. rewrite E. eexists. eapply reset_ok. apply inv_graph; [done|].
  apply upto_same. intros u n. unfold fly. destruct (o_gparams n) as [p|]; [|done]. destruct (_ !! p); [|done]. destruct (differ _ _ _); [|done]. cbv zeta. rewrite set_weight_key. done.
Qed.
(** what it does: all the candidates move at once, each by its velocity, except those that are at the best place of their leader; the marks are cleared; nothing else changes *)
Theorem step_rule k s w r1 r2 : setup_ok O k -> reached O k s -> has_leaders k s -> 0 <= w_vmax w -> exists s', run_call O (Swarm_step w r1 r2) s = Some s' /\
  forall u n, at_ s u = Some n -> exists n', at_ s' u = Some n' /\ o_flag n' = false /\ o_pher n' = o_pher n /\ o_input n' = o_input n /\ o_personal n' = o_personal n /\ o_global n' = o_global n /\ o_best n' = o_best n /\ o_gparams n' = o_gparams n /\
    (~ is_particle k s u -> o_body n' = o_body n /\ o_v n' = o_v n) /\
    (forall a b c x p m, is_particle k s u -> o_body n = Weight a b c x -> o_gparams n = Some p -> at_ s p = Some m ->
      (o_best m = x -> o_body n' = o_body n /\ o_v n' = o_v n) /\
      (o_best m <> x -> let v := velocity w (r1 u) (r2 u) (o_v n) x (o_best n) (o_best m) in o_v n' = v /\ o_body n' = Weight a b c (x + v))).
Proof.
  intros Hk Hr HL Hv. destruct (reached_inv O k s Hk Hr) as [ts H]. destruct (pso_ok k ts s w r1 r2 Hk H HL Hv) as (g & E & ->). cbn [run_call]. rewrite E.
  rewrite (reset_ok k ts); [eexists; split; [reflexivity|]|]. 2:{ apply inv_graph; [done|]. apply upto_same. intros u n. unfold fly. destruct (o_gparams n) as [p|]; [|done]. destruct (_ !! p); [|done]. destruct (differ _ _ _); [|done]. cbv zeta. rewrite set_weight_key. done. }
  intros u n Hn. unfold at_ in *. cbn [s_graph with_graph g_nodes]. rewrite list_lookup_fmap, upto_lookup, Hn. cbn [fmap option_fmap option_map]. eexists. split; [reflexivity|]. split; [done|].
  assert (Hf : forall n1, n1 = (if decide (u ∈ concat (rows_of 1 (plan k))) then fly w r1 r2 s u n else n) -> o_pher n1 = o_pher n /\ o_input n1 = o_input n /\ o_personal n1 = o_personal n /\ o_global n1 = o_global n /\ o_best n1 = o_best n /\ o_gparams n1 = o_gparams n).
  { intros n1 ->. destruct (decide _); [|done]. unfold fly. destruct (o_gparams n) as [p|] eqn:Ep; [|done]. destruct (_ !! p); [|done]. by destruct (differ _ _ _). }
  destruct (Hf _ eq_refl) as (A1 & A2 & A3 & A4 & A5 & A6). cbn. repeat (split; [done|]). split.
  - intros Hu. rewrite decide_False by (intros Z; apply Hu; by apply (is_particle_rows O k ts s)). done.
  - intros a b c x p m Hu Eb Ep Em. rewrite decide_True by (by apply (is_particle_rows O k ts s)). unfold fly. rewrite Ep, Em. unfold weight_of. rewrite Eb.
    assert (Hd : differ O (o_best m) x = negb (bool_decide (o_best m = x))). { unfold differ. cbn. repeat case_bool_decide; try done; cbn; lra. }
    rewrite Hd. split; intros Q; [rewrite bool_decide_eq_true_2 by done|rewrite bool_decide_eq_false_2 by done]; cbn; rewrite ?Eb; done.
Qed.
(** no candidate moves by more than v_max *)
Theorem moves_are_bounded k s w r1 r2 s' i q j x : setup_ok O k -> reached O k s -> 0 <= w_vmax w -> run_call O (Swarm_step w r1 r2) s = Some s' -> in_space k i q j -> candidate s i q j = Some x ->
  exists x', candidate s' i q j = Some x' /\ Rabs (x' - x) <= w_vmax w.
Proof.
  intros Hk Hr Hv E Hsp Hx. destruct (reached_inv O k s Hk Hr) as [ts H]. pose proof (step_leaders k ts s s' w r1 r2 Hk H E) as HL. destruct (step_rule k s w r1 r2 Hk Hr HL Hv) as (s1 & E' & Hall). assert (s1 = s') as -> by congruence.
  pose proof (run_call_inv O k ts _ s s' H E) as H'. unfold candidate in *. rewrite (i_widths _ _ _ _ H), (i_layers _ _ _ _ H) in Hx. rewrite (i_widths _ _ _ _ H'), (i_layers _ _ _ _ H').
  destruct (k_widths k !! i) as [wd|] eqn:Ew; [|done]. cbn [mbind option_bind] in *. destruct (ids_all 1 (plan k) !! i) as [ids|] eqn:Ei; [|done]. cbn [mbind option_bind] in *.
  destruct (ids !! _) as [u|] eqn:Eu; [|done]. cbn [mbind option_bind] in *. destruct (g_nodes (s_graph s) !! u) as [n|] eqn:En; [|done]. cbn [mbind option_bind] in Hx. destruct (o_body n) as [|a b c y| |] eqn:Eb; try done. injection Hx as ->.
  assert (Hp : is_particle k s u). { exists i, q, j. split; [done|]. unfold particle. rewrite (i_widths _ _ _ _ H), (i_layers _ _ _ _ H), Ew. cbn [mbind option_bind]. rewrite Ei. cbn [mbind option_bind]. exact Eu. }
  destruct (HL u n Hp En) as (p & m & Ep & Em). destruct (Hall u n En) as (n' & En' & _ & _ & _ & _ & _ & _ & _ & _ & Hmv). destruct (Hmv a b c x p m Hp Eb Ep Em) as [M1 M2]. unfold at_ in En'. rewrite En'. cbn [mbind option_bind].
  destruct (decide (o_best m = x)) as [Q|Q].
  - destruct (M1 Q) as [-> _]. rewrite Eb. exists x. split; [done|]. replace (x - x) with 0 by lra. rewrite Rabs_R0. done.
  - destruct (M2 Q) as [_ ->]. eexists. split; [reflexivity|]. match goal with |- Rabs (x + ?v - x) <= _ => replace (x + v - x) with v by lra end. unfold velocity. apply Rabs_le. split; [apply Rmax_l|]. apply Rmax_lub; [lra|apply Rmin_l].
Qed.
(** rounds of the swarm never stop, from any state of the search and with any parameters *)
Theorem swarm_rounds_never_stop k s (ps : list (swarm R * (nat -> R) * (nat -> R))) : setup_ok O k -> reached O k s -> Forall (fun p => 0 <= w_vmax p.1.1) ps -> exists s', run O (concat ((fun p => swarm_round p.1.1 p.1.2 p.2) <$> ps)) s = Some s' /\ reached O k s'.
Proof.
  intros Hk. revert s. induction ps as [|[[w r1] r2] ps IH]; intros s Hr HF; [by exists s|]. apply list.Forall_cons in HF as [Hv HF]. cbn [fmap list_fmap concat fst snd swarm_round app run]. cbn [fst] in Hv.
  destruct (fitness_nodes_rule k s Hk Hr) as (s1 & Q1 & _). rewrite Q1. cbn [mbind option_bind]. pose proof (reached_step O k _ s s1 Hr Q1) as R1'.
  destruct (personal_rule k s1 Hk R1') as (s2 & Q2 & _). rewrite Q2. cbn [mbind option_bind]. pose proof (reached_step O k _ s1 s2 R1' Q2) as R2'.
  destruct (global_rule k s2 Hk R2') as (s3 & Q3 & HL & _). rewrite Q3. cbn [mbind option_bind]. pose proof (reached_step O k _ s2 s3 R2' Q3) as R3'.
  destruct (step_rule k s3 w r1 r2 Hk R3' HL Hv) as (s4 & Q4 & _). rewrite Q4. cbn [mbind option_bind]. apply IH; [|done]. exact (reached_step O k _ s3 s4 R3' Q4).
Qed.

(** where it stops: before the first set_best_global..., the step follows a null pointer *)
Theorem step_before_leaders_refuted k junk rnd s w r1 r2 : setup_ok O k -> init_aco O junk rnd k = Some s -> run_call O (Swarm_step w r1 r2) s = None.
Proof.
  intros Hk E. destruct (run_call O _ s) as [s'|] eqn:Es; [|done]. exfalso. destruct (inv_init O junk rnd k s Hk E) as [ts H]. pose proof (step_leaders k ts s s' w r1 r2 Hk H Es) as HL.
  destruct (plan_spec O k Hk) as (L & Hlok & _). destruct (lookup_lt_is_Some_2 (plan k) 0) as [p Hp]; [rewrite L; pose proof (ok_layers _ _ Hk); lia|]. rewrite Forall_lookup in Hlok. destruct (Hlok 0%nat p Hp) as [Hw Hq].
  assert (Hsp : in_space k 0 0 0) by (apply (in_space_plan O k _ _ _ Hk); exists p; done). assert (Hpt : is_particle k s (1 + psum (take 0 (plan k)) + 0 * p.1.2 + 0)) by (exists 0%nat, 0%nat, 0%nat; split; [done|]; by apply (particle_id O k ts)).
  destruct (particle_in_range O k ts s _ H Hk Hpt) as (n & _ & _ & _ & _ & En & _). destruct (HL _ n Hpt En) as (q & m & Eg & _). destruct (init_nodes k junk rnd s _ n Hk E En) as (_ & Z & _). congruence.
Qed.
(** set_best_global_node_fitness_pso counts 4*depth-3 weights in a layer, whatever its sizes.  With fewer weights it reads past the end *)
Theorem global_by_depth_overruns_refuted k s i a b d : setup_ok O k -> reached O k s -> k_sizes k !! i = Some a -> k_sizes k !! (i + 1)%nat = Some b -> k_depths k !! i = Some d -> (a * b < 4 * d - 3)%nat -> run_call O Global s = None.
Proof.
  intros Hk Hr Ea Eb Ed Hlt. destruct (run_call O Global s) as [s'|] eqn:E; [|done]. exfalso. destruct (reached_inv O k s Hk Hr) as [ts H]. pose proof (depth_small k ts s s' i a b d Hk H Ea Eb Ed E). lia.
Qed.
(** with more weights the others are skipped *)
Theorem global_by_depth_skips_refuted k s s' i d q c u : setup_ok O k -> reached O k s -> k_depths k !! i = Some d -> in_space k i q c -> (4 * d - 3 <= q)%nat -> particle s i q c = Some u -> run_call O Global s = Some s' -> at_ s' u = at_ s u.
Proof. intros Hk Hr Ed Hsp Hq Hu E. destruct (reached_inv O k s Hk Hr) as [ts H]. by eapply depth_skips. Qed.
(** so a first round that uses it stops unless every layer has exactly 4*depth-3 weights *)
Theorem first_round_by_depth_refuted k junk rnd s w r1 r2 i a b d : setup_ok O k -> init_aco O junk rnd k = Some s -> k_sizes k !! i = Some a -> k_sizes k !! (i + 1)%nat = Some b -> k_depths k !! i = Some d ->
  (a * b <> 4 * d - 3)%nat -> run O [Fitness; Personal; Global; Swarm_step w r1 r2] s = None.
Proof.
  intros Hk E Ea Eb Ed Hne. assert (Hr : reached O k s) by (exists junk, rnd, [], s; done). cbn [run]. destruct (fitness_rule k s Hk Hr) as (s1 & Q1 & _). rewrite Q1. cbn [mbind option_bind]. pose proof (reached_step O k _ s s1 Hr Q1) as R1'.
  destruct (personal_rule k s1 Hk R1') as (s2 & Q2 & _). rewrite Q2. cbn [mbind option_bind]. pose proof (reached_step O k _ s1 s2 R1' Q2) as R2'. destruct (decide (a * b < 4 * d - 3)%nat) as [Hlt|Hge].
  { by rewrite (global_by_depth_overruns_refuted k s2 i a b d). }
  destruct (run_call O Global s2) as [s3|] eqn:Q3; [|done]. cbn [mbind option_bind]. pose proof (reached_step O k _ s2 s3 R2' Q3) as R3'. destruct (run_call O (Swarm_step w r1 r2) s3) as [s4|] eqn:Q4; [|done]. exfalso.
  destruct (reached_inv O k s Hk Hr) as [ts0 H0]. destruct (reached_inv O k s2 Hk R2') as [ts2 H2]. destruct (reached_inv O k s3 Hk R3') as [ts3 H3]. pose proof (step_leaders k ts3 s3 s4 w r1 r2 Hk H3 Q4) as HL.
  destruct (plan_spec O k Hk) as (L & Hlok & Hs). destruct (lookup_lt_is_Some_2 (plan k) i) as [p Hp]; [apply lookup_lt_Some in Eb; lia|]. destruct (Hs i p Hp) as (A1 & A2 & A3 & _). rewrite Forall_lookup in Hlok. destruct (Hlok i p Hp) as [Hw _].
  assert (p.1.1.1 = a) by congruence. assert (p.1.1.2 = b) by congruence. assert (Hq : (4 * d - 3 < p.1.1.1 * p.1.1.2)%nat) by (subst a b; lia).
  assert (Hsp : in_space k i (4 * d - 3) 0) by (apply (in_space_plan O k _ _ _ Hk); exists p; done). set (u := (1 + psum (take i (plan k)) + (4 * d - 3) * p.1.2 + 0)%nat).
  assert (P2 : particle s2 i (4 * d - 3) 0 = Some u) by (by apply (particle_id O k ts2)). assert (P3 : particle s3 i (4 * d - 3) 0 = Some u) by (by apply (particle_id O k ts3)). assert (P0 : particle s i (4 * d - 3) 0 = Some u) by (by apply (particle_id O k ts0)).
  destruct (particle_in_range O k ts0 s u H0 Hk) as (n & _ & _ & _ & _ & En & _); [by exists i, (4 * d - 3)%nat, 0%nat|]. destruct (init_nodes k junk rnd s u n Hk E En) as (_ & Z & _).
  destruct (leaders_stay k s Fitness s1 u n Hk Hr Q1 ltac:(done) ltac:(done) En) as (n1 & En1 & G1 & _). destruct (leaders_stay k s1 Personal s2 u n1 Hk R1' Q2 ltac:(done) ltac:(done) En1) as (n2 & En2 & G2 & _).
  pose proof (global_by_depth_skips_refuted k s2 s3 i d (4 * d - 3) 0 u Hk R2' Ed Hsp ltac:(lia) P2 Q3) as E3. rewrite En2 in E3. destruct (HL u n2) as (p' & m & Eg & _); [by exists i, (4 * d - 3)%nat, 0%nat|done|]. congruence.
Qed.

(** the hypotheses are met: a search with two weights per row, a round of the swarm in it, a setup for each of the refuted calls *)
Example a_swarm_runs (junk : bool) (rnd : nat -> R) : exists s0 s, init_aco O junk rnd demo1 = Some s0 /\ in_space demo1 0 5 2 /\
  run O (swarm_round (Swarm (1 / 2) 2 2 (1 / 10)) (fun _ => 1 / 3) (fun _ => 1 / 3)) s0 = Some s /\ reached O demo1 s.
Proof.
  destruct (init_aco O junk rnd demo1) as [s0|] eqn:E. 2:{ destruct (init_aco_ok O junk rnd demo1 demo1_ok) as (ts & nodes & edges & E' & _). congruence. }
  exists s0. destruct (swarm_rounds_never_stop demo1 s0 [(Swarm (1 / 2) 2 2 (1 / 10), fun _ => 1 / 3, fun _ => 1 / 3)] demo1_ok) as (s & Es & Rs).
  { by exists junk, rnd, [], s0. }
  { repeat constructor. cbn. lra. }
  exists s. split; [done|]. split; [|split; [|done]].
  - exists 2%nat, 3%nat, 3%nat. repeat split; cbn; lia.
  - cbn [fmap list_fmap concat fst snd] in Es. rewrite app_nil_r in Es. exact Es.
Qed.
Example depths_do_not_fit : (2 * 3 < 4 * 3 - 3)%nat /\ k_sizes demo1 !! 0%nat = Some 2%nat /\ k_sizes demo1 !! 1%nat = Some 3%nat /\ k_depths demo1 !! 0%nat = Some 3%nat.
Proof. split; [lia|done]. Qed.
Example a_velocity : velocity (Swarm 1 1 1 (1 / 2)) (1 / 2) (1 / 2) 0 0 1 4 = 1 / 2 /\ velocity (Swarm 1 1 1 3) (1 / 2) (1 / 2) 0 0 1 4 = 5 / 2.
Proof. unfold velocity. cbn. split; unfold Rmax, Rmin; repeat destruct (Rle_dec _ _); lra. Qed.
