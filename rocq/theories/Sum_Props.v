(** C35, C36: sums of the gradients of several instances, sequential and multithreaded *)
From Verif Require Import NumLib BaseLemmas RealSum Upd_Model Upd_Spec Net_Model Net_Spec Net_Proofs Net_Clip Net_ClipProps Sum_Model Sum_Spec Sum_Threads Sum_Proofs Sum_Reduce Sum_Facts.
Open Scope nat_scope.

Lemma adds_model m : summable m -> NoDup (addrs m) -> adds (addrs m) (model_grads m) (model_L m) (fun s1 s2 s3 => add_model (reloc s1 m) (reloc s2 m) (reloc s3 m)).
Proof.
  intros Hs Hn. apply Accs_adds; [by apply NoDup_model_L|by apply model_L_grads|apply model_L_addrs|]. intros s1 s2 s3 sz. destruct Hs as (Hf & Hc & Hr). apply Accs_model; [|done|].
  - eapply list.Forall_impl; [exact Hf|]. by intros f [_ ?].
  - eapply list.Forall_impl; [exact Hr|]. by intros f [? _].
Qed.
Lemma separate_addrs A s0 ss : separate A (s0 :: ss) -> NoDup A.
Proof. unfold separate. cbn. intros H. apply list.NoDup_app in H as (H & _ & _). by eapply NoDup_of_map. Qed.
Lemma adds_acc A G L add s s' h : adds A G L add -> NoDup (map s A) -> NoDup (map s' A) -> apart A s s' -> allocated h (map (mv s) G) -> allocated h (map (mv s') G) ->
  exists h', run (add s s' s') h = Some h' /\ result L s' (fun p => get h (mv s' p) + get h (mv s p))%R (map s' A) h h'.
Proof.
  intros Ha N N' D H H'. destruct (Ha s s' s' h (or_intror eq_refl) N N' D H H') as (h' & E & (R1 & R2 & R3)). exists h'. split; [done|]. split_and!; [done| |done]. intros p Hp. rewrite R2 by done. lra.
Qed.
Lemma adds_acc' A G L add s s' h : adds A G L add -> NoDup (map s A) -> NoDup (map s' A) -> apart A s s' -> allocated h (map (mv s) G) -> allocated h (map (mv s') G) ->
  exists h', run (add s' s s') h = Some h' /\ result L s' (fun p => get h (mv s' p) + get h (mv s p))%R (map s' A) h h'.
Proof. intros Ha N N' D H H'. apply (Ha s' s s' h (or_introl eq_refl) N' N (apart_sym _ _ _ D) H' H). Qed.
Lemma result_summed S L s0 ss B h h' : S ⊆ L -> result L s0 (fun p => get h (mv s0 p) + suml (map (fun s => get h (mv s p)) ss))%R B h h' -> summed S s0 ss B h h'.
Proof. intros HS (_ & R2 & R3). split; [|done]. intros p Hp. by apply R2, HS. Qed.

(** sum_models_partial_derivatives: every trained gradient of the accumulator grows by the sum of the corresponding gradients of
    all instances; no other layer changes *)
Theorem C35_models_partial m s0 ss h : summable m -> separate (addrs m) (s0 :: ss) -> copies_allocated h (model_grads m) (s0 :: ss) ->
  exists h', run (add_models (reloc s0 m) (map (fun s => reloc s m) ss)) h = Some h' /\ summed (model_slots m) s0 ss (map s0 (addrs m)) h h'.
Proof.
  intros Hs Hsep Hal. pose proof (adds_model m Hs (separate_addrs _ _ _ Hsep)) as Ha.
  destruct (each_sum (fun x y => add_model x y y) (fun s => reloc s m) (addrs m) (model_grads m) (model_L m) (model_L_addrs m)) with (ss := ss) (s0 := s0) (h := h) as (h' & E & R); [|done|done|].
  { intros s s' g N N' D H H'. by apply (adds_acc _ _ _ _ s s' g Ha). }
  exists h'. split; [|eapply result_summed; [by apply model_slots_L|exact R]].
  unfold add_models. rewrite loop_at, each_map. exact E.
Qed.
(** sum_model_partial_derivatives(m,m2,m3) with m3 = m (as the multithreaded sum calls it) or m3 = m2 *)
Theorem C35_pair_partial m s1 s2 s3 h : s3 = s1 \/ s3 = s2 -> summable m -> separate (addrs m) [s1; s2] -> copies_allocated h (model_grads m) [s1; s2] ->
  exists h', run (add_model (reloc s1 m) (reloc s2 m) (reloc s3 m)) h = Some h' /\
    (forall p, p ∈ model_slots m -> get h' (mv s3 p) = (get h (mv s1 p) + get h (mv s2 p))%R) /\ forall a nm, a ∉ map s3 (addrs m) -> h' a nm = h a nm.
Proof.
  intros H3 Hs Hsep Hal. pose proof (adds_model m Hs (separate_addrs _ _ _ Hsep)) as Ha. destruct (separate_pick (addrs m) [s1; s2] 0 1 s1 s2) as (N1 & N2 & D); [done..|].
  apply list.Forall_cons in Hal as [A1 Hal]. apply list.Forall_cons in Hal as [A2 _]. destruct (Ha s1 s2 s3 h H3 N1 N2 D A1 A2) as (h' & E & (R1 & R2 & R3)).
  exists h'. split_and!; [done| |done]. intros p Hp. apply R2. by apply model_slots_L.
Qed.
(** sum_rmodels_partial_derivatives: LSTM layers of any kind, with their normalizations *)
Theorem C35_rmodels ls s0 ss h : separate (map l_at ls) (s0 :: ss) -> copies_allocated h (concat (map lstm_grads ls)) (s0 :: ss) ->
  exists h', run (add_rmodels (reloc_r s0 ls) (map (fun s => reloc_r s ls) ss)) h = Some h' /\ summed (concat (map lstm_slots ls)) s0 ss (map s0 (map l_at ls)) h h'.
Proof.
  intros Hsep Hal.
  assert (HA : forall p, p ∈ concat (map lstm_L ls) -> p.1.1 ∈ map l_at ls).
  { intros p Hp. apply in_concat_map in Hp as (f & Hf & Hp). apply slots_in in Hp as [-> _]. apply elem_of_list_fmap. by exists f. }
  assert (Ha : adds (map l_at ls) (concat (map lstm_grads ls)) (concat (map lstm_L ls)) (fun s1 s2 s3 => add_rmodel (reloc_r s1 ls) (reloc_r s2 ls) (reloc_r s3 ls))).
  { apply Accs_adds; [apply NoDup_lstms_L; by eapply separate_addrs| |done|intros; apply Accs_rmodel].
    intros p Hp. apply in_concat_map in Hp as (f & Hf & Hp). apply in_concat_map. exists f. split; [done|by apply lstm_L_grads]. }
  destruct (each_sum (fun x y => add_rmodel y x y) (fun s => reloc_r s ls) (map l_at ls) (concat (map lstm_grads ls)) (concat (map lstm_L ls)) HA) with (ss := ss) (s0 := s0) (h := h) as (h' & E & R); [|done|done|].
  { intros s s' g N N' D H H'. by apply (adds_acc' _ _ _ _ s s' g Ha). }
  exists h'. split.
  - unfold add_rmodels. rewrite loop_at, each_map. exact E.
  - eapply result_summed; [|exact R]. intros p Hp. apply in_concat_map in Hp as (f & Hf & Hp). apply in_concat_map. exists f. split; [done|by apply lstm_slots_L].
Qed.

(** the networks of a dueling categorical DQN, or of a VAE, summed pairwise *)
Definition nets_grads (ms : list model) : list slot := concat (map model_grads ms).
Definition nets_slots (ms : list model) : list slot := concat (map model_slots ms).
Lemma nets_L_grads ms : Forall summable ms -> concat (map model_L ms) ⊆ nets_grads ms.
Proof. intros Hs p Hp. rewrite list.Forall_forall in Hs. apply in_concat_map in Hp as (m & Hm & Hp). apply in_concat_map. exists m. split; [done|]. apply model_L_grads; [by apply Hs|done]. Qed.
Lemma nets_slots_L ms : Forall summable ms -> nets_slots ms ⊆ concat (map model_L ms).
Proof. intros Hs p Hp. rewrite list.Forall_forall in Hs. apply in_concat_map in Hp as (m & Hm & Hp). apply in_concat_map. exists m. split; [done|]. apply model_slots_L; [by apply Hs|done]. Qed.
Lemma nets_L_addrs ms p : p ∈ concat (map model_L ms) -> p.1.1 ∈ all_addrs ms [].
Proof. intros Hp. apply in_concat_map in Hp as (m & Hm & Hp). apply model_L_addrs in Hp. revert Hp. by apply all_addrs_sub. Qed.
Lemma Accs_summable s1 s2 s3 sz m : summable m -> Accs s1 s2 s3 sz (add_model (reloc s1 m) (reloc s2 m) (reloc s3 m)) (model_L m).
Proof.
  intros (Hf & Hc & Hr). apply Accs_model; [|done|].
  - eapply list.Forall_impl; [exact Hf|]. by intros f [_ ?].
  - eapply list.Forall_impl; [exact Hr|]. by intros f [? _].
Qed.
Lemma adds_dqn d : Forall summable (dqn_nets d) -> NoDup (all_addrs (dqn_nets d) []) ->
  adds (all_addrs (dqn_nets d) []) (nets_grads (dqn_nets d)) (concat (map model_L (dqn_nets d))) (fun s1 s2 s3 => add_dqn (reloc_dqn s1 d) (reloc_dqn s2 d) (reloc_dqn s3 d)).
Proof.
  intros Hs Hn. apply Accs_adds; [by apply NoDup_models_L|by apply nets_L_grads|apply nets_L_addrs|]. intros s1 s2 s3 sz. unfold dqn_nets in *. cbn [map concat]. rewrite app_nil_r.
  do 5 (apply list.Forall_cons in Hs as [? Hs]). unfold add_dqn, reloc_dqn. cbn [shared_hidden v_hidden v_linear a_hidden a_linear]. do 4 (apply Accs_seq; [by apply Accs_summable|]). by apply Accs_summable.
Qed.
Theorem C35_vae_partial v s1 s2 h : let ms := [vae_encoder v; vae_decoder v] in
  Forall summable ms -> separate (all_addrs ms []) [s1; s2] -> copies_allocated h (nets_grads ms) [s1; s2] ->
  exists h', run (add_vae (reloc_vae s1 v) (reloc_vae s2 v) (reloc_vae s1 v)) h = Some h' /\ summed (nets_slots ms) s1 [s2] (map s1 (all_addrs ms [])) h h'.
Proof.
  intros ms Hs Hsep Hal. pose proof (separate_addrs _ _ _ Hsep) as Hn.
  assert (Ha : adds (all_addrs ms []) (nets_grads ms) (concat (map model_L ms)) (fun s1 s2 s3 => add_vae (reloc_vae s1 v) (reloc_vae s2 v) (reloc_vae s3 v))).
  { apply Accs_adds; [by apply NoDup_models_L|by apply nets_L_grads|apply nets_L_addrs|]. intros r1 r2 r3 sz. unfold ms in *. cbn [map concat]. rewrite app_nil_r.
    do 2 (apply list.Forall_cons in Hs as [? Hs]). unfold add_vae, reloc_vae. cbn [vae_encoder vae_decoder]. apply Accs_seq; by apply Accs_summable. }
  destruct (separate_pick (all_addrs ms []) [s1; s2] 0 1 s1 s2) as (N1 & N2 & D); [done..|].
  apply list.Forall_cons in Hal as [A1 Hal]. apply list.Forall_cons in Hal as [A2 _]. destruct (Ha s1 s2 s1 h (or_introl eq_refl) N1 N2 D A1 A2) as (h' & E & (R1 & R2 & R3)).
  exists h'. split; [done|]. split; [|done]. intros p Hp. rewrite R2 by by apply nets_slots_L. cbn [map]. rewrite suml_cons, suml_nil. lra.
Qed.

(** * C36: every schedule of the threads *)
Theorem C36_models_partial m s0 ss h : summable m -> separate (addrs m) (s0 :: ss) -> copies_allocated h (model_grads m) (s0 :: ss) ->
  exists h', always_ends (sum_models_multithread (map (fun s => reloc s m) ss) (reloc s0 m)) h h' /\ summed (model_slots m) s0 ss (copies_at (addrs m) (s0 :: ss)) h h'.
Proof.
  intros Hs Hsep Hal. pose proof (adds_model m Hs (separate_addrs _ _ _ Hsep)) as Ha. unfold sum_models_multithread. rewrite map_length.
  destruct (reduce_top add_model (fun x y => add_model x y y) (fun s => reloc s m) (addrs m) (model_grads m) (model_L m) (model_L_addrs m) Ha) with (ss := ss) (s0 := s0) (h := h) as (h' & E & R); [|done|done|].
  { intros s s' g N N' D H H'. by apply (adds_acc _ _ _ _ s s' g Ha). }
  exists h'. split; [|eapply result_summed; [by apply model_slots_L|exact R]]. eapply always; [|exact E].
  eapply (reduce_top_ok _ _ (fun s => reloc s m)); [intros; by apply ok_reloc| |by apply (separate_app _ [s0]) in Hsep as (_ & ? & _)].
  intros s s'. eapply ok_mono; [|by apply ok_reloc]. set_solver.
Qed.
Theorem C36_dqns_partial d s0 ss h : Forall summable (dqn_nets d) -> separate (all_addrs (dqn_nets d) []) (s0 :: ss) -> copies_allocated h (nets_grads (dqn_nets d)) (s0 :: ss) ->
  exists h', always_ends (sum_dqns_multithread (map (fun s => reloc_dqn s d) ss) (reloc_dqn s0 d)) h h' /\ summed (nets_slots (dqn_nets d)) s0 ss (copies_at (all_addrs (dqn_nets d) []) (s0 :: ss)) h h'.
Proof.
  intros Hs Hsep Hal. pose proof (adds_dqn d Hs (separate_addrs _ _ _ Hsep)) as Ha. unfold sum_dqns_multithread. rewrite map_length.
  destruct (reduce_top add_dqn (fun x y => add_dqn y x y) (fun s => reloc_dqn s d) _ (nets_grads (dqn_nets d)) (concat (map model_L (dqn_nets d))) (nets_L_addrs (dqn_nets d)) Ha) with (ss := ss) (s0 := s0) (h := h) as (h' & E & R); [|done|done|].
  { intros s s' g N N' D H H'. by apply (adds_acc' _ _ _ _ s s' g Ha). }
  exists h'. split; [|eapply result_summed; [by apply nets_slots_L|exact R]]. eapply always; [|exact E].
  eapply (reduce_top_ok _ _ (fun s => reloc_dqn s d)); [intros; by apply ok_dqn| |by apply (separate_app _ [s0]) in Hsep as (_ & ? & _)].
  intros s s'. eapply ok_mono; [|by apply ok_dqn]. set_solver.
Qed.
(** whatever the layers: no execution is infinite and no schedule reaches a data race *)
Theorem C36_race_free m s0 ss h : separate (addrs m) ss ->
  let p := sum_models_multithread (map (fun s => reloc s m) ss) (reloc s0 m) in
  Acc (fun x y => step y x) (p, h) /\ forall p1 h1, steps (p, h) (p1, h1) -> ~ race p1.
Proof.
  intros Hsep p. split; [apply finite|]. intros p1 h1 S.
  assert (Ho : ok (copies_at (addrs m) (s0 :: ss)) p).
  { unfold p, sum_models_multithread. rewrite map_length. eapply (reduce_top_ok _ _ (fun s => reloc s m)); [intros; by apply ok_reloc| |done]. intros s s'. eapply ok_mono; [|by apply ok_reloc]. set_solver. }
  eapply no_race. revert S Ho. generalize p as q. clear p Hsep. intros q S. remember (q, h) as x eqn:Ex. remember (p1, h1) as y eqn:Ey. revert q h Ex. induction S as [x|x [p2 h2] z S0 S IH]; intros q h Ex Ho.
  - rewrite Ex in Ey. by injection Ey as <- <-.
  - subst x. eapply (IH Ey p2 h2); [done|]. by eapply step_ok.
Qed.

(** * What the sums lose *)
(** p writes only arrays and indices in N *)
Fixpoint writes (N : name -> nat -> Prop) (p : prog) : Prop :=
  match p with Done | Fail => True | Read _ _ _ f => forall v, writes N (f v) | Write _ nm i _ k => N nm i /\ writes N k | Par p q k => writes N p /\ writes N q /\ writes N k end.
Lemma run_writes N p h h' a nm i : writes N p -> run p h = Some h' -> ~ N nm i -> get h' (a, nm, i) = get h (a, nm, i).
Proof.
  revert h h'. induction p as [|a1 n1 i1 f IH|a1 n1 i1 v k IH|p IHp q IHq k IHk|]; intros h h' Hw E Hn; cbn in *.
  - by injection E as ->.
  - destruct (rd _ _) as [v|]; [|done]. by eapply IH.
  - destruct (put h a1 n1 i1 v) as [h1|] eqn:E1; [|done]. destruct Hw as [Hw1 Hw2]. rewrite (IH _ _ Hw2 E Hn). unfold put in E1. destruct (wr (h a1 n1) i1 v) as [l|] eqn:E2; [|done]. injection E1 as <-.
    unfold get, hset. cbn [fst snd]. destruct (decide (a = a1 /\ nm = n1)) as [[-> ->]|]; [|done]. apply wr_inv in E2 as [_ ->]. assert (i1 <> i) by (intros ->; done). unfold el. rewrite !nth_lookup. by rewrite list_lookup_insert_ne.
  - destruct Hw as (W1 & W2 & W3). destruct (run p h) as [h1|] eqn:E1; [|done]. cbn in E. destruct (run q h1) as [h2|] eqn:E2; [|done]. cbn in E.
    by rewrite (IHk _ _ W3 E Hn), (IHq _ _ W2 E2 Hn), (IHp _ _ W1 E1 Hn).
  - done.
Qed.
Lemma writes_seq N p q : writes N p -> writes N q -> writes N (seq p q).
Proof. intros Hp Hq. induction p; cbn in *; try done; naive_solver. Qed.
Lemma writes_loop N n i0 body : (forall i, i0 <= i < i0 + n -> writes N (body i)) -> writes N (loop n i0 body).
Proof. revert i0. induction n as [|n IH]; intros i0 H; cbn; [done|]. apply writes_seq; [apply H; lia|]. apply IH. intros. apply H. lia. Qed.
Lemma writes_at {X} N (l : list X) i k : (forall x, writes N (k x)) -> writes N (at_ l i k).
Proof. intros H. unfold at_. destruct (l !! i); [apply H|done]. Qed.
Lemma writes_when N b p : writes N p -> writes N (when b p).
Proof. by destruct b. Qed.
Lemma writes_arrays (N : name -> nat -> Prop) a1 a2 a3 nm n : (forall i, i < n -> N nm i) -> writes N (sum_arrays a1 a2 a3 nm n).
Proof. intros H. apply writes_loop. intros i Hi. cbn. intros _ _. split; [apply H; lia|done]. Qed.
Ltac ws := repeat first [apply writes_arrays; [intros; cbn; first [done | lia]] | apply writes_when | apply writes_seq | apply writes_loop; intros ? _ | apply writes_at; intros ?].

(** gradients of noise parameters are never added: the accumulator keeps its old ones *)
Theorem C35_noisy_refuted sum_m models h h' a i : run (add_models sum_m models) h = Some h' ->
  get h' (a, NoisyWeights, i) = get h (a, NoisyWeights, i) /\ get h' (a, NoisyBiases, i) = get h (a, NoisyBiases, i).
Proof.
  intros E. assert (W : writes (fun nm _ => match nm with NoisyWeights | NoisyBiases => False | _ => True end) (add_models sum_m models)).
  { unfold add_models. apply writes_loop. intros k _. apply writes_at. intros m. unfold add_model, over3. apply writes_seq; [|apply writes_seq].
    - apply writes_loop. intros j _. do 3 (apply writes_at; intros ?). unfold add_fcl. ws. match goal with |- context [fl_norm ?c] => destruct (fl_norm c); [ws|done] end.
    - apply writes_loop. intros j _. do 3 (apply writes_at; intros ?). unfold add_cl. ws.
    - apply writes_loop. intros j _. do 3 (apply writes_at; intros ?). apply writes_loop. intros j' _. do 3 (apply writes_at; intros ?). unfold add_residual. ws. }
  split; (eapply run_writes; [exact W|exact E|]); by cbn; auto.
Qed.
(** a normalized dense layer: d_beta is never added *)
Theorem C35_layer_norm_refuted f f2 f3 h h' a b i : run (add_fcl f f2 f3) h = Some h' -> get h' (a, Beta b, i) = get h (a, Beta b, i).
Proof.
  intros E. eapply (run_writes (fun nm _ => match nm with Beta _ => False | _ => True end)); [|exact E|cbn; tauto]. unfold add_fcl. ws. destruct (fl_norm (f_cfg f)); [ws|done].
Qed.
(** group normalization after a convolution, alone or in a residual layer: d_gamma is never added *)
Theorem C35_group_gamma_refuted f f2 f3 h h' a b i : run (add_cl f f2 f3) h = Some h' \/ run (add_residual f f2 f3) h = Some h' -> get h' (a, Gamma b, i) = get h (a, Gamma b, i).
Proof.
  intros [E|E]; (eapply (run_writes (fun nm _ => match nm with Gamma _ => False | _ => True end)); [|exact E|cbn; tauto]); [unfold add_cl|unfold add_residual]; ws.
Qed.
(** a residual layer trained by its scores: only the first n_kernels of the n_kernels*channels*rows*cols scores are added *)
Theorem C35_residual_scores_refuted f f2 f3 h h' a i : run (add_residual f f2 f3) h = Some h' -> cv_kernels (c_cfg f) <= i -> get h' (a, Scores, i) = get h (a, Scores, i).
Proof.
  intros E Hi. eapply (run_writes (fun nm i => match nm with Scores => i < cv_kernels (c_cfg f) | _ => True end)); [|exact E|cbn; lia]. unfold add_residual. ws.
Qed.
(** ... and d_beta is added twice *)
Definition beta_L (f : cnode) : list slot :=
  concat (map (fun b => arr (c_at f) (Beta b) (group_dim (cv_group (c_cfg f)) b) ++ arr (c_at f) (Beta b) (group_dim (cv_group (c_cfg f)) b)) (List.seq 0 (length (cv_group (c_cfg f))))).
Definition group_L (f : cnode) : list slot :=
  concat (map (fun k => arr (c_at f) (Kernel k) (cl_sizes (c_cfg f) (Kernel k))) (List.seq 0 (cv_kernels (c_cfg f)))) ++ arr (c_at f) Biases (cv_kernels (c_cfg f)) ++ beta_L f.
Lemma Accs_group s1 s2 s3 sz f : cv_conv (c_cfg f) = true -> cv_mode (c_cfg f) = GRADIENT_DESCENT ->
  Accs s1 s2 s3 sz (add_cl (reloc_c s1 f) (reloc_c s2 f) (reloc_c s3 f)) (group_L f).
Proof.
  intros Hc Hm. unfold add_cl, group_L. cbn [reloc_c c_cfg c_at c_edge]. rewrite Hc, Hm. bdv. cbn [when].
  eapply Accs_eq; [apply Accs_seq; [apply Accs_seq; [apply Accs_kernels|apply Accs_seq; [apply Accs_arrays|]]|apply Accs_done]|by rewrite app_nil_r].
  apply Accs_loop. intros k Hk. unfold at_, group_dim. destruct (lookup_lt_is_Some_2 (cv_group (c_cfg f)) k) as [b E]; [lia|]. rewrite E. apply Accs_seq; apply Accs_arrays.
Qed.
Lemma elem_arr p a nm n : p ∈ arr a nm n <-> p.1.1 = a /\ p.1.2 = nm /\ p.2 < n.
Proof.
  unfold arr. rewrite elem_of_list_fmap. split.
  - intros (i & -> & Hi). apply elem_of_seq in Hi. cbn. split_and!; try done. lia.
  - destruct p as [[a' nm'] i]. cbn. intros (-> & -> & Hi). exists i. split; [done|]. apply elem_of_seq. lia.
Qed.
Lemma acc_comm s1 s2 s3 L h : acc_all s1 s2 s3 L h = acc_all s2 s1 s3 L h.
Proof. revert h. induction L as [|p L IH]; intros h; cbn [acc_all]; [done|]. rewrite IH. f_equal. unfold op. by rewrite Rplus_comm. Qed.
Lemma group_run (o : bool) f s s0 h : cv_conv (c_cfg f) = true -> cv_mode (c_cfg f) = GRADIENT_DESCENT -> s (c_at f) <> s0 (c_at f) ->
  allocated h (map (mv s) (group_L f)) -> allocated h (map (mv s0) (group_L f)) ->
  exists h', run (if o then add_cl (reloc_c s f) (reloc_c s0 f) (reloc_c s0 f) else add_cl (reloc_c s0 f) (reloc_c s f) (reloc_c s0 f)) h = Some h' /\
    (forall a nm, length (h' a nm) = length (h a nm)) /\ (forall a nm, a <> s0 (c_at f) -> h' a nm = h a nm) /\
    forall b i, b < length (cv_group (c_cfg f)) -> i < group_dim (cv_group (c_cfg f)) b ->
    get h' (s0 (c_at f), Beta b, i) = (get h (s0 (c_at f), Beta b, i) + 2 * get h (s (c_at f), Beta b, i))%R.
Proof.
  intros Hc Hm Hs A1 A2. set (sz := fun a nm => length (h a nm)).
  assert (F : fits3 s s0 s0 sz (group_L f)).
  { intros p Hp. unfold allocated in A1, A2. rewrite list.Forall_forall in A1. rewrite list.Forall_forall in A2.
    assert (H1 := A1 (mv s p) ltac:(apply elem_of_list_fmap; by exists p)). assert (H2 := A2 (mv s0 p) ltac:(apply elem_of_list_fmap; by exists p)). done. }
  exists (acc_all s s0 s0 (group_L f) h). split.
  { destruct o; [by apply (Accs_group s s0 s0 sz f Hc Hm F h)|]. rewrite acc_comm. apply (Accs_group s0 s s0 sz f Hc Hm); [|done]. intros p Hp. apply F in Hp. naive_solver. }
  split; [by apply (acc_shaped s s0 s0 sz)|]. split.
  { intros a' nm Ha'. apply (acc_only s s0 s0 (group_L f) [c_at f]); [|cbn; set_solver]. intros p. unfold group_L, beta_L. rewrite !elem_of_app, !in_concat_map. setoid_rewrite elem_of_app. setoid_rewrite elem_arr. set_solver. }
  intros b i Hb Hi.
  set (a := c_at f) in *. set (n := group_dim (cv_group (c_cfg f)) b) in *. set (A := arr a (Beta b) n).
  assert (Sp : exists L1 L2, group_L f = L1 ++ (A ++ A) ++ L2 /\ (forall p, p ∈ L1 ++ L2 -> p.1.1 = a /\ p.1.2 <> Beta b)).
  { unfold group_L, beta_L. set (K := concat (map (fun k => arr (c_at f) (Kernel k) _) _)). set (N := length (cv_group (c_cfg f))) in *.
    set (D := fun k => arr (c_at f) (Beta k) (group_dim (cv_group (c_cfg f)) k) ++ arr (c_at f) (Beta k) (group_dim (cv_group (c_cfg f)) k)).
    exists (K ++ arr (c_at f) Biases (cv_kernels (c_cfg f)) ++ concat (map D (List.seq 0 b))), (concat (map D (List.seq (S b) (N - S b)))). split.
    - replace N with (b + S (N - S b)) at 1 by lia. rewrite seq_app, map_app, concat_app. cbn [List.seq map concat]. unfold D at 2. rewrite <- !app_assoc. reflexivity.
    - intros p. unfold K. rewrite !elem_of_app, !in_concat_map. setoid_rewrite elem_arr. unfold D. setoid_rewrite elem_of_app. setoid_rewrite elem_arr. setoid_rewrite elem_of_seq.
      intros [[(k & _ & -> & -> & _)|[(-> & -> & _)|(k & Hk & [(-> & -> & _)|(-> & -> & _)])]]|(k & Hk & [(-> & -> & _)|(-> & -> & _)])]; split; try done; intros [= E]; lia. }
  destruct Sp as (L1 & L2 & E & Hd). rewrite E in F |- *. rewrite !acc_app. set (p := (a, Beta b, i) : slot). change (s0 a, Beta b, i) with (mv s0 p). change (s a, Beta b, i) with (mv s p).
  assert (Hne : forall q, q ∈ L1 ++ L2 -> mv s0 p <> mv s0 q).
  { intros q Hq Eq. destruct (Hd q Hq) as [_ X]. apply X. by injection Eq. }
  assert (Hsame : forall L g, (forall q, q ∈ L -> q.1.1 = a) -> get (acc_all s s0 s0 L g) (mv s p) = get g (mv s p)).
  { intros L g HL. apply get_acc_other. intros Hx. apply elem_of_list_fmap in Hx as (q & Eq & Hq). apply Hs. injection Eq as E1 _ _. rewrite (HL q Hq) in E1. done. }
  assert (HA : forall q, q ∈ A -> q.1.1 = a) by (intros q Hq; by apply elem_arr in Hq as (? & _)).
  assert (HL1 : forall q, q ∈ L1 -> q.1.1 = a) by (intros q Hq; apply (Hd q); set_solver).
  assert (Hstep : forall g, shaped sz g -> get (acc_all s s0 s0 A g) (mv s0 p) = (get g (mv s p) + get g (mv s0 p))%R).
  { intros g Hg. apply (get_acc s s0 s0 sz); [done|apply NoDup_arr| | |apply elem_arr; done].
    - intros q Hq. apply F. set_solver.
    - intros q q' Hq Hq' Hn. apply elem_arr in Hq as (Q1 & Q2 & _), Hq' as (Q1' & Q2' & _). destruct q as [[qa qn] qi], q' as [[qa' qn'] qi']. cbn in *. subst. unfold mv. cbn. split_and!; intros [= X]; try done; subst; done. }
  rewrite (get_acc_other s s0 s0 L2) by (intros Hx; apply elem_of_list_fmap in Hx as (q & Eq & Hq); apply (Hne q); [set_solver|done]).
  assert (Sh : shaped sz h) by done. rewrite Hstep by (by repeat apply acc_shaped). rewrite (Hsame A) by done. rewrite (Hsame L1) by done. rewrite Hstep by (by apply acc_shaped). rewrite (Hsame L1) by done.
  rewrite (get_acc_other s s0 s0 L1) by (intros Hx; apply elem_of_list_fmap in Hx as (q & Eq & Hq); apply (Hne q); [set_solver|done]). lra.
Qed.

Theorem C35_group_beta_refuted f s s0 h b i : cv_conv (c_cfg f) = true -> cv_mode (c_cfg f) = GRADIENT_DESCENT -> s (c_at f) <> s0 (c_at f) ->
  allocated h (map (mv s) (group_L f)) -> allocated h (map (mv s0) (group_L f)) -> b < length (cv_group (c_cfg f)) -> i < group_dim (cv_group (c_cfg f)) b ->
  exists h', run (add_cl (reloc_c s f) (reloc_c s0 f) (reloc_c s0 f)) h = Some h' /\
    get h' (s0 (c_at f), Beta b, i) = (get h (s0 (c_at f), Beta b, i) + 2 * get h (s (c_at f), Beta b, i))%R.
Proof. intros Hc Hm Hs A1 A2 Hb Hi. destruct (group_run true f s s0 h Hc Hm Hs A1 A2) as (h' & E & _ & _ & V). exists h'. split; [done|]. by apply V. Qed.
(** with threads the doubling compounds along the tree: the d_beta of four instances is not the sequential sum of C35 (2 for each) *)
Theorem C36_group_beta_refuted f s0 s1 s2 s3 s4 h b i : cv_conv (c_cfg f) = true -> cv_mode (c_cfg f) = GRADIENT_DESCENT ->
  separate [c_at f] [s0; s1; s2; s3; s4] -> copies_allocated h (group_L f) [s0; s1; s2; s3; s4] -> b < length (cv_group (c_cfg f)) -> i < group_dim (cv_group (c_cfg f)) b ->
  let m := Model [] [f] [] in let g := fun s : nat -> nat => get h (s (c_at f), Beta b, i) in
  exists h', always_ends (sum_models_multithread (map (fun s => reloc s m) [s1; s2; s3; s4]) (reloc s0 m)) h h' /\
    get h' (s0 (c_at f), Beta b, i) = (g s0 + 2 * (g s1 + 2 * g s2 + 2 * (g s3 + 2 * g s4)))%R.
Proof.
  intros Hc Hm Hsep Hal Hb Hi m g. set (a := c_at f) in *.
  assert (Hsub : addrs m ⊆ [a]) by done.
  assert (Hok := fun p => reduce_top_ok add_model (fun x y => add_model x y y) (fun s => reloc s m) [a] (fun s1 s2 s3 => ok_reloc m [a] s1 s2 s3 Hsub) p [s1; s2; s3; s4] s0 (proj1 (proj2 (separate_app _ [s0] [s1; s2; s3; s4] Hsep)))).
  assert (Hr : exists h', run (sum_models_multithread (map (fun s => reloc s m) [s1; s2; s3; s4]) (reloc s0 m)) h = Some h' /\ get h' (s0 a, Beta b, i) = (g s0 + 2 * (g s1 + 2 * g s2 + 2 * (g s3 + 2 * g s4)))%R).
  2: { destruct Hr as (h' & E & V). exists h'. split; [|done]. eapply always; [|exact E]. apply Hok. intros s s'. cbn beta. eapply ok_mono; [|by apply ok_reloc]. set_solver. }
  unfold separate in Hsep. cbn in Hsep. rewrite !list.NoDup_cons in Hsep. unfold copies_allocated in Hal. repeat (apply list.Forall_cons in Hal as [? Hal]).
  assert (Eq : run (sum_models_multithread (map (fun s => reloc s m) [s1; s2; s3; s4]) (reloc s0 m)) h =
    (h ← run (add_cl (reloc_c s1 f) (reloc_c s2 f) (reloc_c s1 f)) h; h ← run (add_cl (reloc_c s3 f) (reloc_c s4 f) (reloc_c s3 f)) h;
     h ← run (add_cl (reloc_c s1 f) (reloc_c s3 f) (reloc_c s1 f)) h; run (add_cl (reloc_c s1 f) (reloc_c s0 f) (reloc_c s0 f)) h)).
  { assert (Em : forall r1 r2 r3 h, run (add_model (reloc r1 m) (reloc r2 m) (reloc r3 m)) h = run (add_cl (reloc_c r1 f) (reloc_c r2 f) (reloc_c r3 f)) h).
    { intros r1 r2 r3 h0. unfold add_model, over3, reloc, m. cbn [fcls cls rls map length loop seq at_ lookup list_lookup]. rewrite !run_seq. by destruct (run _ h0). }
    unfold sum_models_multithread. cbn [length map]. rewrite (reduce_eq add_model _ 3) by lia. cbn [at_ lookup list_lookup]. change (4 / 2) with 2. cbn [at_ lookup list_lookup run].
    rewrite decide_True by done. cbn [drop skipn Nat.sub reduce]. rewrite !decide_False by lia. cbn [at_ lookup list_lookup]. rewrite Em. destruct (run _ h) as [h1|]; [|done]. cbn [mbind option_bind].
    rewrite Em. destruct (run _ h1) as [h2|]; [|done]. cbn [mbind option_bind]. rewrite run_seq, Em. destruct (run _ h2) as [h3|]; [|done]. cbn [mbind option_bind]. by rewrite Em. }
  rewrite Eq. clear Eq Hok.
  destruct (group_run false f s2 s1 h) as (h1 & E1 & L1 & O1 & V1); [done|done|set_solver|done|done|]. rewrite E1. cbn [mbind option_bind].
  assert (AL : forall g1 g2 S, (forall a nm, length (g2 a nm : list R) = length (g1 a nm)) -> allocated g1 S -> allocated g2 S).
  { intros g1 g2 S HL HS. unfold allocated in *. eapply list.Forall_impl; [exact HS|]. cbn. intros p. by rewrite HL. }
  destruct (group_run false f s4 s3 h1) as (h2 & E2 & L2 & O2 & V2); [done|done|set_solver|by apply (AL h)..|]. rewrite E2. cbn [mbind option_bind].
  assert (L20 : forall a nm, length (h2 a nm) = length (h a nm)) by (intros; by rewrite L2).
  destruct (group_run false f s3 s1 h2) as (h3 & E3 & L3 & O3 & V3); [done|done|set_solver|by apply (AL h)..|]. rewrite E3. cbn [mbind option_bind].
  assert (L30 : forall a nm, length (h3 a nm) = length (h a nm)) by (intros; by rewrite L3).
  destruct (group_run true f s1 s0 h3) as (h4 & E4 & L4 & O4 & V4); [done|done|set_solver|by apply (AL h)..|]. exists h4. split; [done|]. fold a in V1, V2, V3, V4, O1, O2, O3, O4.
  assert (G : forall r g1 g2 nm, (forall a' nm, a' <> r a -> g2 a' nm = g1 a' nm) -> forall r', r' a <> r a -> get g2 (r' a, nm, i) = get g1 (r' a, nm, i)).
  { intros r g1 g2 nm HO r' Hne. unfold get. cbn. by rewrite HO. }
  rewrite V4 by done. rewrite V3 by done. rewrite (G s1 h2 h3 _ O3 s0), (G s3 h1 h2 _ O2 s0), (G s1 h h1 _ O1 s0) by set_solver. rewrite V2 by done. rewrite (G s3 h1 h2 _ O2 s1) by set_solver. rewrite V1 by done.
  rewrite (G s1 h h1 _ O1 s3), (G s1 h h1 _ O1 s4) by set_solver. unfold g. lra.
Qed.

(** * Examples *)
Definition at_copy (k : nat) : nat -> nat := fun a => a + 10 * k.
(** entry i of every gradient array of copy k holds k + i *)
Definition sum_heap : heap := fun a nm => [INR (a / 10); INR (a / 10) + 1; INR (a / 10) + 2; INR (a / 10) + 3]%R.
Definition sum_net : model := Model [FN 0 (Fcl GRADIENT_DESCENT false false 2 1 None) 1 false; FN 1 (Fcl EDGE_POPUP false false 1 2 None) 1 false]
  [CN 2 (Cl GRADIENT_DESCENT true 2 1 1 2 []) false; CN 5 (Cl EDGE_POPUP true 2 1 1 2 []) false] [[CN 3 (Cl GRADIENT_DESCENT true 1 1 2 2 []) true; CN 4 (Cl FREEZE_TRAINING true 1 1 1 1 []) false]].
Ltac summing := unfold summable, fcl_sums, cl_sums, residual_sums; cbn; repeat first [done | lia | constructor].
Example C35_models_example : summable sum_net /\ separate (addrs sum_net) (map at_copy [0; 1; 2; 3]) /\ copies_allocated sum_heap (model_grads sum_net) (map at_copy [0; 1; 2; 3]) /\
  exists h', run (add_models (reloc (at_copy 0) sum_net) (map (fun k => reloc (at_copy k) sum_net) [1; 2; 3])) sum_heap = Some h' /\ get h' (0, Weights, 1) = (1 + (2 + (3 + 4)))%R /\ get h' (10, Weights, 1) = 2%R.
Proof.
  assert (H1 : summable sum_net) by summing.
  assert (H2 : separate (addrs sum_net) (map at_copy [0; 1; 2; 3])) by (apply (bool_decide_unpack _); vm_compute; done).
  assert (H3 : copies_allocated sum_heap (model_grads sum_net) (map at_copy [0; 1; 2; 3])) by (apply (bool_decide_unpack _); vm_compute; done).
  split_and!; [done..|]. destruct (C35_models_partial sum_net (at_copy 0) (map at_copy [1; 2; 3]) sum_heap H1 H2 H3) as (h' & E & [S1 S2]). exists h'. split; [exact E|]. split.
  - pose proof (S1 (0, Weights, 1)) as X. unfold mv, at_copy, get in X. cbn in X. unfold get. cbn. rewrite X; [cbn; unfold suml; cbn; lra|]. apply (bool_decide_unpack _). vm_compute. done.
  - unfold get. cbn [fst snd]. rewrite S2 by (apply (bool_decide_unpack _); vm_compute; done). cbn. lra.
Qed.
Example C35_rmodels_example : let ls := [LN 0 (Lstm GRADIENT_DESCENT 1 2) [Bnl true 2; Bnl true 2]; LN 1 (Lstm EDGE_POPUP 2 2) []] in
  separate (map l_at ls) (map at_copy [0; 1; 2]) /\ copies_allocated sum_heap (concat (map lstm_grads ls)) (map at_copy [0; 1; 2]) /\ length (concat (map lstm_slots ls)) = 72.
Proof. split_and!; apply (bool_decide_unpack _); vm_compute; done. Qed.
Definition sum_dense (a : nat) : model := Model [FN a (Fcl GRADIENT_DESCENT false false 1 2 None) 1 false] [] [].
Example C35_vae_example : let ms := [sum_dense 0; sum_dense 1] in Forall summable ms /\ separate (all_addrs ms []) (map at_copy [0; 1]) /\ copies_allocated sum_heap (nets_grads ms) (map at_copy [0; 1]).
Proof. split_and!; [repeat (apply list.Forall_cons; split); [summing..|by constructor]|apply (bool_decide_unpack _); vm_compute; done..]. Qed.
(** six copies: two threads of three each *)
Example C36_models_example : summable sum_net /\ separate (addrs sum_net) (map at_copy [0; 1; 2; 3; 4; 5; 6]) /\ copies_allocated sum_heap (model_grads sum_net) (map at_copy [0; 1; 2; 3; 4; 5; 6]) /\
  exists p q k, sum_models_multithread (map (fun k => reloc (at_copy k) sum_net) [1; 2; 3; 4; 5; 6]) (reloc (at_copy 0) sum_net) = Par p q k.
Proof. split_and!; [summing|apply (bool_decide_unpack _); vm_compute; done..|]. do 3 eexists. unfold sum_models_multithread. rewrite (reduce_eq add_model _ 5) by (cbn; lia). cbn [map at_ lookup list_lookup length Nat.div Nat.divmod fst snd]. reflexivity. Qed.
Example C36_dqns_example : let d := Dqn (sum_dense 0) (sum_dense 1) (sum_dense 2) (sum_dense 3) (sum_dense 4) in Forall summable (dqn_nets d) /\
  separate (all_addrs (dqn_nets d) []) (map at_copy [0; 1; 2; 3; 4]) /\ copies_allocated sum_heap (nets_grads (dqn_nets d)) (map at_copy [0; 1; 2; 3; 4]).
Proof. split_and!; [repeat (apply list.Forall_cons; split); [summing..|by constructor]|apply (bool_decide_unpack _); vm_compute; done..]. Qed.
(** two threads adding the same two layers do race *)
Example race_example h : (forall a nm, length (h a nm) = 2) -> exists p1 h1, steps (Par (sum_arrays 0 1 0 Weights 1) (sum_arrays 0 1 0 Weights 1) Done, h) (p1, h1) /\ race p1.
Proof.
  intros H. assert (R : forall a, exists v, rd (h a Weights) 0 = Some v) by (intros a; destruct (lookup_lt_is_Some_2 (h a Weights) 0) as [v E]; [rewrite H; lia|]; by exists v).
  destruct (R 0) as [v0 E0], (R 1) as [v1 E1]. eexists _, h. split.
  - eapply rtc_l; [apply step_left, step_read, E0|]. eapply rtc_l; [apply step_left, step_read, E1|]. apply rtc_refl.
  - cbn. right. right. exists (0, Weights, 0), true, false. split_and!; [apply elem_of_list_singleton; done..|done].
Qed.
(** the gradients that the sums lose are trained: noise, normalization and residual scores *)
Example C35_noisy_example : let f := FN 0 (Fcl GRADIENT_DESCENT false true 1 1 None) 1 false in let m := Model [f] [] [] in
  (0, NoisyWeights, 0) ∈ model_slots m /\ exists h', run (add_models m [reloc (at_copy 1) m]) sum_heap = Some h' /\ ~ summed (model_slots m) (at_copy 0) [at_copy 1] (map (at_copy 0) (addrs m)) sum_heap h'.
Proof.
  intros f m. assert (Hin : (0, NoisyWeights, 0) ∈ model_slots m) by (apply (bool_decide_unpack _); vm_compute; done). split; [done|]. match goal with |- exists h', run ?p ?h = _ /\ _ => assert (X : exists h', run p h = Some h') by (eexists; cbn; reflexivity) end. destruct X as [h' E]. exists h'. split; [done|]. intros [H _].
  specialize (H _ Hin). unfold mv, at_copy in H. cbn [fst snd Nat.add Nat.mul] in H. rewrite (proj1 (C35_noisy_refuted _ _ _ _ 0 0 E)) in H. cbn in H. unfold suml in H. cbn in H. lra.
Qed.
Example C35_layer_norm_example : let f := FN 0 (Fcl GRADIENT_DESCENT false false 1 1 (Some (Bnl true 1))) 1 false in
  (0, Beta 0, 0) ∈ fcl_slots f /\ exists h', run (add_fcl (reloc_f (at_copy 1) f) f f) sum_heap = Some h' /\ ~ summed (fcl_slots f) (at_copy 0) [at_copy 1] [0] sum_heap h'.
Proof.
  intros f. assert (Hin : (0, Beta 0, 0) ∈ fcl_slots f) by (apply (bool_decide_unpack _); vm_compute; done). split; [done|]. match goal with |- exists h', run ?p ?h = _ /\ _ => assert (X : exists h', run p h = Some h') by (eexists; cbn; reflexivity) end. destruct X as [h' E]. exists h'. split; [done|]. intros [H _].
  specialize (H _ Hin). unfold mv, at_copy in H. cbn [fst snd Nat.add Nat.mul] in H. rewrite (C35_layer_norm_refuted _ _ _ _ _ _ _ _ E) in H. cbn in H. unfold suml in H. cbn in H. lra.
Qed.
Example C35_group_example : let f := CN 0 (Cl GRADIENT_DESCENT true 1 1 1 1 [Bnl true 2]) false in
  (0, Gamma 0, 1) ∈ cl_slots f /\ (0, Beta 0, 1) ∈ cl_slots f /\ allocated sum_heap (map (mv (at_copy 1)) (group_L f)) /\ allocated sum_heap (map (mv (at_copy 0)) (group_L f)) /\
  exists h', run (add_cl (reloc_c (at_copy 1) f) f f) sum_heap = Some h' /\ ~ summed (cl_slots f) (at_copy 0) [at_copy 1] [0] sum_heap h'.
Proof.
  intros f. assert (Hin : (0, Gamma 0, 1) ∈ cl_slots f) by (apply (bool_decide_unpack _); vm_compute; done). split; [done|]. split_and!; [apply (bool_decide_unpack _); vm_compute; done..|].
  match goal with |- exists h', run ?p ?h = _ /\ _ => assert (X : exists h', run p h = Some h') by (eexists; cbn; reflexivity) end. destruct X as [h' E]. exists h'. split; [done|]. intros [H _]. specialize (H _ Hin). unfold mv, at_copy in H. cbn [fst snd Nat.add Nat.mul] in H. rewrite (C35_group_gamma_refuted _ _ _ _ _ _ _ _ (or_introl E)) in H. cbn in H. unfold suml in H. cbn in H. lra.
Qed.
Example C36_group_example : let f := CN 0 (Cl GRADIENT_DESCENT true 1 1 1 1 [Bnl true 2]) false in
  separate [c_at f] (map at_copy [0; 1; 2; 3; 4]) /\ copies_allocated sum_heap (group_L f) (map at_copy [0; 1; 2; 3; 4]).
Proof. split; apply (bool_decide_unpack _); vm_compute; done. Qed.
Example C35_residual_scores_example : let f := CN 0 (Cl EDGE_POPUP true 1 1 1 2 []) false in
  (0, Scores, 1) ∈ cl_slots f /\ exists h', run (add_residual (reloc_c (at_copy 1) f) f f) sum_heap = Some h' /\ ~ summed (cl_slots f) (at_copy 0) [at_copy 1] [0] sum_heap h'.
Proof.
  intros f. assert (Hin : (0, Scores, 1) ∈ cl_slots f) by (apply (bool_decide_unpack _); vm_compute; done). split; [done|]. match goal with |- exists h', run ?p ?h = _ /\ _ => assert (X : exists h', run p h = Some h') by (eexists; cbn; reflexivity) end. destruct X as [h' E]. exists h'. split; [done|]. intros [H _].
  specialize (H _ Hin). unfold mv, at_copy in H. cbn [fst snd Nat.add Nat.mul] in H. rewrite (C35_residual_scores_refuted _ _ _ _ _ _ _ E) in H by (cbn; lia). cbn in H. unfold suml in H. cbn in H. lra.
Qed.
Print Assumptions C35_models_partial.
Print Assumptions C35_pair_partial.
Print Assumptions C35_rmodels.
Print Assumptions C35_vae_partial.
Print Assumptions C36_models_partial.
Print Assumptions C36_dqns_partial.
Print Assumptions C36_race_free.
Print Assumptions C35_noisy_refuted.
Print Assumptions C35_layer_norm_refuted.
Print Assumptions C35_group_gamma_refuted.
Print Assumptions C35_group_beta_refuted.
Print Assumptions C36_group_beta_refuted.
Print Assumptions C35_residual_scores_refuted.
