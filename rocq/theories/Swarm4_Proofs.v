(** The swarm in every reached state; where it stops. *)
From Coq Require Import Reals Lra.
From Verif Require Import BaseLemmas Aco_Spec Aco_Proofs Aco2_Proofs Aco3_Proofs Aco4_Proofs Aco5_Proofs Aco6_Proofs Aco7_Proofs Aco8_Proofs Pher_Spec Pher_Proofs Pher2_Proofs Swarm_Spec Swarm_Proofs Swarm2_Proofs Swarm3_Proofs.
Ltac bnd H x E := match type of H with mbind _ ?o = _ => destruct o as [x|] eqn:E; [|done] end; cbn [mbind option_bind] in H.
Open Scope nat_scope.
Local Notation O := real_num.

Definition better (n n' : node R) : Prop := (o_personal n <= o_personal n')%R /\ (o_personal n' = o_personal n -> o_best n' = o_best n).
Lemma better_refl n : better n n. Proof. split; [lra|done]. Qed.
Lemma better_trans a b c : better a b -> better b c -> better a c.
Proof. intros [A1 A2] [B1 B2]. split; [lra|]. intros E. assert (o_personal b = o_personal a) by lra. assert (o_personal c = o_personal b) by lra. rewrite B2 by done. auto. Qed.
Lemma run_call_better k ts c (s s' : aco R) : inv O k ts s -> clear_edges (s_graph s) -> run_call O c s = Some s' -> rel better (s_graph s) (s_graph s').
Proof.
  apply run_call_rel; [apply better_refl|apply better_trans|..]; try (intros; split; cbn; [lra|done]).
  intros _ n Hlt. split; cbn; lra.
Qed.
Lemma run_call_body k ts c (s s' : aco R) : (forall w r1 r2, c <> Swarm_step w r1 r2) -> (forall f, c <> Move f) -> inv O k ts s -> clear_edges (s_graph s) -> run_call O c s = Some s' ->
  rel (fun n n' => o_body n' = o_body n) (s_graph s) (s_graph s').
Proof.
  intros N1 N2. apply run_call_rel; try done; [intros; congruence|intros w r1 r2 Z; by destruct (N1 w r1 r2)|intros f Z; by destruct (N2 f)].
Qed.
Lemma run_call_leader k ts c (s s' : aco R) : c <> Global -> c <> GlobalNodes -> inv O k ts s -> clear_edges (s_graph s) -> run_call O c s = Some s' ->
  rel (fun n n' => o_gparams n' = o_gparams n /\ o_global n' = o_global n) (s_graph s) (s_graph s').
Proof.
  intros N1 N2. apply run_call_rel; try done; [intros a b c' [A1 A2] [B1 B2]; split; congruence|intros [|]; done].
Qed.
Lemma rel_at (Rn : node R -> node R -> Prop) (s s' : aco R) u n : rel Rn (s_graph s) (s_graph s') -> at_ s u = Some n -> exists n', at_ s' u = Some n' /\ Rn n n'.
Proof. intros H E. destruct (Forall2_lookup_l _ _ _ _ _ H E) as (n' & A & B). eauto. Qed.
Lemma init_nodes k junk rnd (s : aco R) u n : setup_ok O k -> init_aco O junk rnd k = Some s -> at_ s u = Some n ->
  o_personal n = 0%R /\ o_gparams n = None /\ o_v n = 0%R /\ (is_weight (o_body n) = true -> o_best n = weight_of O n).
Proof.
  intros Hk E En. destruct (init_aco_ok O junk rnd k Hk) as (ts' & nodes & edges & E' & _). rewrite E' in E. injection E as <-. unfold at_ in En. cbn [s_graph ready g_nodes mk] in En. rewrite list_lookup_fmap, list_lookup_imap in En.
  destruct (_ !! u) as [bd|]; [|done]. cbn in En. injection En as <-. cbn. split; [done|]. split; [done|]. split; [done|]. by destruct bd.
Qed.
Lemma reached_personal k (s : aco R) : setup_ok O k -> reached O k s -> Forall (fun n => (0 <= o_personal n)%R) (g_nodes (s_graph s)).
Proof.
  intros Hk. revert s. apply (reached_ind O k (fun s => Forall (fun n => (0 <= o_personal n)%R) (g_nodes (s_graph s)))); [done| |].
  - intros junk rnd s0 E. apply Forall_lookup. intros i n En. destruct (init_nodes k junk rnd s0 i n Hk E En) as (-> & _). lra.
  - intros ts c s0 s1 H Hc E HF. pose proof (run_call_better k ts c s0 s1 H Hc E) as HR. apply Forall_lookup. intros i n' En'. destruct (Forall2_lookup_r _ _ _ _ _ HR En') as (n & En & [Hb _]). rewrite Forall_lookup in HF. specialize (HF i n En). cbn in HF. lra.
Qed.

(** the leaders of the rows *)
Lemma global_ok k ts (s : aco R) : setup_ok O k -> inv O k ts s -> Forall (fun n => (0 <= o_personal n)%R) (g_nodes (s_graph s)) ->
  exists g', best_global_nodes O s = Some (with_graph s g') /\ g_edges g' = g_edges (s_graph s) /\
    (forall u, ~ is_particle k s u -> g_nodes g' !! u = at_ s u) /\
    (forall i q p, plan k !! i = Some p -> q < p.1.1.1 * p.1.1.2 -> exists j m nm, j < p.1.2 /\ particle s i q j = Some m /\ at_ s m = Some nm /\
      (forall c u n, c < p.1.2 -> particle s i q c = Some u -> at_ s u = Some n -> (o_personal n <= o_personal nm)%R /\ (c < j -> (o_personal n < o_personal nm)%R) /\ g_nodes g' !! u = Some (set_global (o_personal nm) (Some m) n))).
Proof.
  intros Hk H HF. assert (HP : forall u, u ∈ concat (rows_of 1 (plan k)) -> is_particle k s u) by (intros u Hu; by apply (is_particle_rows O k ts s)). destruct (rows_of_bounds (plan k) 1) as [_ HN].
  destruct (plan_spec O k Hk) as (_ & Hlok & _).
  destruct (shares_ok (s_graph s) (rows_of 1 (plan k)) HN) as (g' & Eg & Ee & _ & Hout & Hin).
  - apply list.Forall_forall. intros row Hrow. apply rows_of_inv in Hrow as (i & p & q & Ep & _ & ->). rewrite Forall_lookup in Hlok. destruct (Hlok i p Ep) as [Hw _]. destruct p.1.2; [lia|done].
  - apply list.Forall_forall. intros u Hu. destruct (particle_in_range O k ts s u H Hk (HP u Hu)) as (n & a & b & c & x & En & Eb). exists n. split; [done|]. split; [by rewrite Eb|]. rewrite Forall_lookup in HF. by eapply HF.
  - exists g'. unfold best_global_nodes, best_global_by. assert (Es : for_loop (length (s_sizes s) - 1) 0 (fun i g => r ← rows_of_sizes s i; w ← rd (s_widths s) i; nodes ← rd (s_layers s) i; for_loop r 0 (share_row O nodes w) g) (s_graph s) = Some g').
    { rewrite <- Eg, <- (swarm_loop O k ts s share Hk H). done. }
    rewrite Es. cbn [mbind option_bind]. split; [done|]. split; [done|]. split.
    + intros u Hu. apply Hout. intros Z. by apply Hu, HP.
    + intros i q p Ep Hq. pose proof (rows_of_row 1 (plan k) i p q Ep Hq) as Hrow. set (b0 := 1 + psum (take i (plan k)) + q * p.1.2) in *.
      rewrite Forall_lookup in Hlok. destruct (Hlok i p Ep) as [Hw _].
      destruct (best_of_row_ok (s_graph s) (seq b0 p.1.2)) as (x & m & j & nm & Eb & Ej & Em & Ex & Hall & Hbef).
      * apply list.Forall_forall. intros u Hu. assert (Hc : u ∈ concat (rows_of 1 (plan k))) by (apply elem_of_list_In, in_concat; eexists; split; apply elem_of_list_In; [exact Hrow|exact Hu]).
        destruct (particle_in_range O k ts s u H Hk (HP u Hc)) as (n & a & b & c & y & En & Ebn). exists n. split; [done|]. split; [by rewrite Ebn|]. rewrite Forall_lookup in HF. by eapply HF.
      * destruct p.1.2; [lia|done].
      * assert (Hj : j < p.1.2) by (apply lookup_lt_Some in Ej; by rewrite seq_length in Ej). rewrite lookup_seq_lt in Ej by done. injection Ej as Ej.
        exists j, m, nm. split; [done|]. split; [rewrite (particle_id O k ts s i p q j H Hk Ep Hq Hj); f_equal; unfold b0 in Ej; lia|]. split; [done|].
        intros c u n Hc Hu En. rewrite (particle_id O k ts s i p q c H Hk Ep Hq Hc) in Hu. injection Hu as Hu. fold b0 in Hu. assert (Hur : u ∈ seq b0 p.1.2) by (apply elem_of_seq; unfold b0; cbn; lia). rewrite Ex. split; [by eapply Hall|]. split.
        -- intros Hcj. apply (Hbef c u n Hcj); [|done]. rewrite lookup_seq_lt by done. f_equal. unfold b0. cbn. lia.
        -- destruct (Hin _ u n Hrow Hur En) as (b & Eb' & En'). rewrite Eb in Eb'. injection Eb' as <-. exact En'.
Qed.

(** a loop that succeeds has run its body *)
Lemma for_loop_body (f : nat -> graph R -> option (graph R)) cnt : forall i0 g g' i, for_loop cnt i0 f g = Some g' -> i0 <= i < i0 + cnt -> exists g1 g2, f i g1 = Some g2.
Proof.
  induction cnt as [|cnt IH]; intros i0 g g' i E Hi; [lia|]. cbn in E. bnd E g1 Q1. destruct (decide (i = i0)) as [->|]; [eauto|]. eapply IH; [exact E|lia].
Qed.
Lemma each_member {A} (f : A -> graph R -> option (graph R)) (T : graph R -> graph R -> Prop) l : (forall g, T g g) -> (forall a b c, T a b -> T b c -> T a c) -> (forall x g g', f x g = Some g' -> T g g') ->
  forall g g' x, each f l g = Some g' -> x ∈ l -> exists g1 g2, T g g1 /\ f x g1 = Some g2.
Proof.
  intros Tr Tt Hf. induction l as [|y l IH]; intros g g' x E Hx; [by apply elem_of_nil in Hx|]. cbn in E. bnd E g1 Q1. apply elem_of_cons in Hx as [->|Hx]; [eauto|]. destruct (IH g1 g' x E Hx) as (g2 & g3 & A1 & B1). exists g2, g3. split; [|done]. eapply Tt; [by eapply Hf|done].
Qed.
Lemma step_leaders k ts (s s' : aco R) w r1 r2 : setup_ok O k -> inv O k ts s -> update_pso O w r1 r2 s = Some s' -> has_leaders k s.
Proof.
  intros Hk H E u n Hu En. unfold update_pso in E. rewrite (swarm_loop O k ts s (each (pso_step O w r1 r2)) Hk H), each_concat in E. bnd E g Q.
  set (Rn := fun n n' : node R => o_gparams n' = o_gparams n).
  assert (T1 : forall n, Rn n n) by done. assert (T2 : forall a b c, Rn a b -> Rn b c -> Rn a c) by (unfold Rn; intros; congruence).
  destruct (each_member (pso_step O w r1 r2) (rel Rn) _ (rel_refl Rn T1) (rel_trans Rn T2) ltac:(intros x g1 g2 Z; eapply (pso_step_rel Rn T1 T2); [|exact Z]; done) _ _ u Q) as (g1 & g2 & HR & Ef).
  { by apply (is_particle_rows O k ts s). }
  unfold at_ in En. destruct (Forall2_lookup_l _ _ _ _ _ HR En) as (n1 & En1 & Eg). unfold Rn in Eg. unfold pso_step in Ef. unfold rd in Ef. rewrite En1 in Ef. cbn [mbind option_bind] in Ef. bnd Ef p Ep. bnd Ef m Em.
  destruct (Forall2_lookup_r _ _ _ _ _ HR Em) as (m0 & Em0 & _). exists p, m0. split; [congruence|done].
Qed.
Lemma psum_take_lt (ps : list lplan) i j p : i < j -> ps !! i = Some p -> psum (take i ps) + lsize p <= psum (take j ps).
Proof.
  revert ps j. induction i as [|i IH]; intros [|q ps] [|j] Hij Hp; try done; try lia.
  - cbn in Hp. injection Hp as ->. cbn [take psum]. lia.
  - cbn [lookup list_lookup] in Hp. cbn [take psum]. specialize (IH ps j ltac:(lia) Hp). lia.
Qed.
Lemma row_of_inv b len w j row u : row_of (seq b len) w j = Some row -> u ∈ row -> exists c, c < w /\ u = b + (j * w + c) /\ j * w + c < len.
Proof.
  unfold row_of. intros E Hu. apply mapM_Some in E. apply elem_of_list_lookup in Hu as [i Hi]. destruct (Forall2_lookup_r _ _ _ _ _ E Hi) as (c & Hc & Er). apply lookup_seq in Hc as [-> Hc]. cbn in *. unfold rd in Er. apply lookup_seq in Er as [-> Hlt]. eauto.
Qed.
Lemma depth_small k ts (s s' : aco R) i a b d : setup_ok O k -> inv O k ts s -> k_sizes k !! i = Some a -> k_sizes k !! (i + 1) = Some b -> k_depths k !! i = Some d -> best_global O s = Some s' -> 4 * d - 3 <= a * b.
Proof.
  intros Hk H Ea Eb Ed E. destruct (decide (4 * d - 3 <= a * b)) as [|N]; [done|]. exfalso. unfold best_global, best_global_by in E. bnd E g Q.
  destruct (for_loop_body _ _ _ _ _ i Q) as (g1 & g2 & Ei); [rewrite (i_sizes _ _ _ _ H); apply lookup_lt_Some in Eb; lia|]. cbn beta in Ei.
  destruct (plan_spec O k Hk) as (L & Hlok & Hs). destruct (lookup_lt_is_Some_2 (plan k) i) as [p Hp]; [apply lookup_lt_Some in Eb; lia|]. destruct (Hs i p Hp) as (A1 & A2 & A3 & _). rewrite Forall_lookup in Hlok. destruct (Hlok i p Hp) as [Hw _].
  unfold rows_of_depths, rd in Ei. rewrite (i_depths _ _ _ _ H), Ed in Ei. cbn [mbind option_bind] in Ei. rewrite (i_widths _ _ _ _ H), A3 in Ei. cbn [mbind option_bind] in Ei. rewrite (i_layers _ _ _ _ H), (ids_lookup _ 1 _ _ Hp) in Ei. cbn [mbind option_bind] in Ei.
  destruct (for_loop_body _ _ _ _ _ (a * b) Ei) as (g3 & g4 & Ej); [lia|]. unfold share_row in Ej. bnd Ej row Er. assert (p.1.1.1 = a) by congruence. assert (p.1.1.2 = b) by congruence.
  assert (Hl : length row = p.1.2) by (unfold row_of in Er; apply mapM_length in Er; by rewrite seq_length in Er). destruct row as [|u row]; [cbn in Hl; lia|]. destruct (row_of_inv _ _ _ _ _ u Er ltac:(left)) as (c & Hc & _ & Hlt).
  replace (p.1.2 * p.1.1.1 * p.1.1.2) with (p.1.1.1 * p.1.1.2 * p.1.2) in Hlt by lia. subst a b. lia.
Qed.
Lemma depth_skips k ts (s s' : aco R) i d q c u : setup_ok O k -> inv O k ts s -> k_depths k !! i = Some d -> in_space k i q c -> 4 * d - 3 <= q -> particle s i q c = Some u -> best_global O s = Some s' -> at_ s' u = at_ s u.
Proof.
  intros Hk H Ed Hin Hq Hu E. apply (in_space_plan O k i q c Hk) in Hin as (p & Hp & Hqp & Hc). rewrite (particle_id O k ts s i p q c H Hk Hp Hqp Hc) in Hu. injection Hu as Hu.
  destruct (plan_spec O k Hk) as (L & Hlok & Hs). unfold best_global, best_global_by in E. bnd E g Q. injection E as <-. unfold at_. cbn. revert Q. generalize (s_graph s) as g0. intros g0.
  assert (Hbody : forall i' g1 g2, (fun i g => r ← rows_of_depths s i; w ← rd (s_widths s) i; nodes ← rd (s_layers s) i; for_loop r 0 (share_row O nodes w) g) i' g1 = Some g2 -> g_nodes g2 !! u = g_nodes g1 !! u).
  { intros i' g1 g2 Ei. cbn beta in Ei. bnd Ei r Er. bnd Ei w Ew. bnd Ei nodes En. unfold rd in Ew, En. rewrite (i_widths _ _ _ _ H) in Ew. rewrite (i_layers _ _ _ _ H) in En.
    destruct (plan k !! i') as [p'|] eqn:Ep'. 2:{ apply lookup_ge_None in Ep'. assert (Z : length (ids_all 1 (plan k)) = length (plan k)). { clear. generalize 1. induction (plan k); intros b; [done|]. cbn. by rewrite IHl. } rewrite lookup_ge_None_2 in En by lia. done. }
    rewrite (ids_lookup _ 1 _ _ Ep') in En. injection En as <-. destruct (Hs i' p' Ep') as (_ & _ & A3' & _). assert (w = p'.1.2) as -> by congruence.
    assert (Hnot : forall j row, j < r -> row_of (seq (1 + psum (take i' (plan k))) (p'.1.2 * p'.1.1.1 * p'.1.1.2)) p'.1.2 j = Some row -> u ∉ row).
    { intros j row Hj Erow Z. destruct (row_of_inv _ _ _ _ _ u Erow Z) as (c' & Hc' & Eu & Hlt). assert (Hls : p'.1.2 * p'.1.1.1 * p'.1.1.2 <= lsize p') by (unfold lsize; lia).
      assert (Hu2 : q * p.1.2 + c < lsize p). { unfold lsize. apply Nat.lt_le_trans with (S q * p.1.2); [lia|]. apply Nat.le_trans with (p.1.1.1 * p.1.1.2 * p.1.2); [by apply Nat.mul_le_mono_r|lia]. }
      destruct (lt_eq_lt_dec i i') as [[Hlt'| ->]|Hgt].
      - pose proof (psum_take_lt _ _ _ _ Hlt' Hp). lia.
      - replace p' with p in * by congruence. unfold rows_of_depths, rd in Er. rewrite (i_depths _ _ _ _ H), Ed in Er. cbn in Er. injection Er as <-. assert (Eq : q * p.1.2 + c = j * p.1.2 + c') by lia.
        assert (S j * p.1.2 <= q * p.1.2) by (apply Nat.mul_le_mono_r; lia). cbn in H0. lia.
      - pose proof (psum_take_lt _ _ _ _ Hgt Ep'). lia. }
    clear -Ei Hnot. assert (G : forall r0 j0, j0 + r0 <= r -> forall g1, for_loop r0 j0 (share_row O (seq (1 + psum (take i' (plan k))) (p'.1.2 * p'.1.1.1 * p'.1.1.2)) p'.1.2) g1 = Some g2 -> g_nodes g2 !! u = g_nodes g1 !! u).
    { induction r0 as [|r0 IH]; intros j0 Hj g3 E3; cbn in E3; [by injection E3 as <-|]. bnd E3 g4 Q4. rewrite (IH (S j0) ltac:(lia) g4 E3). unfold share_row in Q4. bnd Q4 row Erow. bnd Q4 b Eb. specialize (Hnot j0 row ltac:(lia) Erow). clear -Q4 Hnot.
      revert g3 Q4. induction row as [|v row IH]; intros g3 Q4; cbn in Q4; [by injection Q4 as <-|]. bnd Q4 g5 Q5. rewrite (IH ltac:(intros Z; apply Hnot; by right) g5 Q4). unfold on_node in Q5. bnd Q5 n En. bnd Q5 ns Ens. injection Q5 as <-. apply wr_inv in Ens as [_ ->]. cbn.
      apply list_lookup_insert_ne. intros ->. apply Hnot. left. }
    by apply (G r 0 ltac:(lia)). }
  match goal with |- for_loop _ _ ?f _ = _ -> _ => assert (G : forall cnt i0 g0, for_loop cnt i0 f g0 = Some g -> g_nodes g !! u = g_nodes g0 !! u); [|apply G] end.
  clear g0. induction cnt as [|cnt IH]; intros i0 g0 E; cbn in E; [by injection E as <-|]. bnd E g1 Q1. rewrite (IH (S i0) g1 E). by apply (Hbody i0).
Qed.
