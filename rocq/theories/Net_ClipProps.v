(** C34: gradient clipping *)
From Coq Require Import R_sqrt.
From Verif Require Import NumLib Upd_Model Upd_Spec Net_Model Net_Spec Net_Proofs Net_Clip.
Open Scope nat_scope.

(** clipping_gradient: with N the norm of all trained gradients of the network, nothing changes when N < threshold, otherwise every
    gradient is multiplied by threshold/N; the norm afterwards is min(N, threshold) *)
Theorem C34_clipping m thr h : plain m -> NoDup (addrs m) -> allocated h (model_slots m) -> (0 < thr)%R ->
  exists h', clipping_gradient m thr h = Some h' /\ clipped thr (model_slots m) h h'.
Proof.
  intros Hp Hn Ha Ht. replace (model_slots m) with (all_slots [m] []) in * by (unfold all_slots; cbn; by rewrite !app_nil_r).
  eapply clip_run with (L1 := model_visit m) (L2 := model_visit m); try done.
  - apply NoDup_all_slots. unfold all_addrs. cbn. by rewrite !app_nil_r.
  - by apply Sums_add_m.
  - intros k. by apply Scales_m.
  - rewrite model_visit_slots by done. unfold all_slots. cbn. by rewrite !app_nil_r.
  - rewrite model_visit_slots by done. unfold all_slots. cbn. by rewrite !app_nil_r.
Qed.

(** the same for the other networks *)
Lemma all_slots_models ms : all_slots ms [] = concat (map model_slots ms).
Proof. unfold all_slots. cbn. by rewrite app_nil_r. Qed.
Theorem C34_dqn d thr h : Forall plain (dqn_nets d) -> NoDup (all_addrs (dqn_nets d) []) -> allocated h (all_slots (dqn_nets d) []) -> (0 < thr)%R ->
  exists h', dqn_clipping_gradient d thr h = Some h' /\ clipped thr (all_slots (dqn_nets d) []) h h'.
Proof.
  change (dqn_nets d) with (dqn_models d). intros Hp Hn Ha Ht. assert (Hf := Hp). rewrite list.Forall_forall in Hf.
  eapply clip_run with (L1 := concat (map model_visit (dqn_models d))) (L2 := concat (map model_visit (dqn_models d))); try done.
  - by apply NoDup_all_slots.
  - apply Sums_upto. intros m Hm. apply Sums_add_m; [done|by apply Hf].
  - intros k. apply Scales_upto. intros m Hm. by apply Scales_m, Hf.
  - rewrite all_slots_models. by apply models_visit_slots.
  - rewrite all_slots_models. by apply models_visit_slots.
Qed.
Theorem C34_vae v thr h : let ms := [vae_encoder v; vae_decoder v] in
  Forall plain ms -> NoDup (all_addrs ms []) -> allocated h (all_slots ms []) -> (0 < thr)%R ->
  exists h', clipping_gradient_vae_model v thr h = Some h' /\ clipped thr (all_slots ms []) h h'.
Proof.
  intros ms Hp Hn Ha Ht. assert (Hf := Hp). unfold ms in Hf. rewrite !list.Forall_cons in Hf. destruct Hf as (P1 & P2 & _).
  unfold clipping_gradient_vae_model.
  destruct (clip_run thr (all_slots ms []) h (fun s => s ← add_m h (vae_encoder v) s; add_m h (vae_decoder v) s)
    (fun d h => h ← clip_m d (vae_encoder v) h; clip_m d (vae_decoder v) h)
    (model_visit (vae_encoder v) ++ model_visit (vae_decoder v)) (model_visit (vae_encoder v) ++ model_visit (vae_decoder v))) as (h' & E & Hc); try done.
  - by apply NoDup_all_slots.
  - apply Sums_seq; by apply Sums_add_m.
  - intros k. apply Scales_seq; by apply Scales_m.
  - rewrite all_slots_models, <- models_visit_slots by done. cbn. by rewrite app_nil_r.
  - rewrite all_slots_models, <- models_visit_slots by done. cbn. by rewrite app_nil_r.
  - exists h'. split; [|done]. rewrite <- E. by destruct (add_m h (vae_encoder v) 0%R).
Qed.
Theorem C34_encoder t thr h : encoder_ok t -> NoDup (all_addrs (encoder_models t) (e_l2 t)) -> allocated h (encoder_slots t) -> (0 < thr)%R ->
  exists h', clipping_gradient_transf_encoder t thr h = Some h' /\ clipped thr (encoder_slots t) h h'.
Proof.
  intros Ho Hn Ha Ht. eapply clip_run with (L1 := encoder_visit t) (L2 := encoder_visit2 t); try done.
  - by apply NoDup_all_slots.
  - by apply Sums_encoder.
  - intros k. by apply Scales_encoder.
  - by apply encoder_visit_slots.
  - by apply encoder_visit2_slots.
Qed.
Theorem C34_decoder t thr h : decoder_ok t -> NoDup (all_addrs (decoder_models t) (e_l2 (d_e t) ++ d_l2 t)) -> allocated h (decoder_slots t) -> (0 < thr)%R ->
  exists h', clipping_gradient_transf_decoder t thr h = Some h' /\ clipped thr (decoder_slots t) h h'.
Proof.
  intros Ho Hn Ha Ht. eapply clip_run with (L1 := decoder_visit t) (L2 := decoder_visit2 t); try done.
  - by apply NoDup_all_slots.
  - by apply Sums_decoder.
  - intros k. by apply Scales_decoder.
  - by apply decoder_visit_slots.
  - by apply decoder_visit2_slots.
Qed.
Lemma all_slots_app ms1 ms2 ss1 ss2 : all_slots (ms1 ++ ms2) (ss1 ++ ss2) ≡ₚ all_slots ms1 ss1 ++ all_slots ms2 ss2.
Proof. unfold all_slots. rewrite !map_app, !concat_app. solve_Permutation. Qed.
Lemma all_slots_concat {A} (l : list A) fm fs : all_slots (concat (map fm l)) (concat (map fs l)) ≡ₚ concat (map (fun x => all_slots (fm x) (fs x)) l).
Proof. induction l as [|x l IH]; cbn [map concat]; [done|]. by rewrite all_slots_app, IH. Qed.
Lemma transf_slots t : all_slots (transf_models t) (transf_l2 t) ≡ₚ concat (map encoder_slots (te t)) ++ concat (map decoder_slots (td t)).
Proof. unfold transf_models, transf_l2. by rewrite all_slots_app, !all_slots_concat. Qed.
Theorem C34_transformer t thr h : Forall encoder_ok (te t) -> Forall decoder_ok (td t) -> NoDup (all_addrs (transf_models t) (transf_l2 t)) ->
  allocated h (all_slots (transf_models t) (transf_l2 t)) -> (0 < thr)%R ->
  exists h', clipping_gradient_transf t thr h = Some h' /\ clipped thr (all_slots (transf_models t) (transf_l2 t)) h h'.
Proof.
  intros He Hd Hn Ha Ht. rewrite list.Forall_forall in He. rewrite list.Forall_forall in Hd. unfold clipping_gradient_transf.
  destruct (clip_run thr (all_slots (transf_models t) (transf_l2 t)) h (fun s => s ← over (te t) (sum_encoder_in_transf h) s; over (td t) (sum_decoder h) s)
    (fun d h => h ← over (te t) (clip_encoder d) h; over (td t) (clip_decoder d) h)
    (concat (map encoder_visit3 (te t)) ++ concat (map decoder_visit (td t))) (concat (map encoder_visit2 (te t)) ++ concat (map decoder_visit2 (td t)))) as (h' & E & Hc); try done.
  - by apply NoDup_all_slots.
  - apply Sums_seq; apply Sums_upto; intros x Hx; [by apply Sums_encoder3; auto|by apply Sums_decoder; auto].
  - intros k. apply Scales_seq; apply Scales_upto; intros x Hx; [by apply Scales_encoder; auto|by apply Scales_decoder; auto].
  - rewrite transf_slots. apply Permutation_app; apply concat_map_perm; intros x Hx; [by apply encoder_visit3_slots; auto|by apply decoder_visit_slots; auto].
  - rewrite transf_slots. apply Permutation_app; apply concat_map_perm; intros x Hx; [by apply encoder_visit2_slots; auto|by apply decoder_visit2_slots; auto].
  - exists h'. split; [|done]. rewrite <- E. by destruct (over (te t) (sum_encoder_in_transf h) 0%R).
Qed.
(** general_clipping_gradient when only models are given *)
Theorem C34_general_models_partial ms thr h : Forall plain ms -> NoDup (all_addrs ms []) -> allocated h (all_slots ms []) -> (0 < thr)%R ->
  exists h', general_clipping_gradient ms [] [] [] [] thr h = Some h' /\ clipped thr (all_slots ms []) h h'.
Proof.
  intros Hp Hn Ha Ht. assert (Hf := Hp). rewrite list.Forall_forall in Hf.
  destruct (clip_run thr (all_slots ms []) h (over ms (add_m h)) (fun d => over ms (clip_m d)) (concat (map model_visit ms)) (concat (map model_visit ms))) as (h' & E & Hc); try done.
  - by apply NoDup_all_slots.
  - apply Sums_upto. intros m Hm. apply Sums_add_m; [done|by apply Hf].
  - intros k. apply Scales_upto. intros m Hm. by apply Scales_m, Hf.
  - rewrite all_slots_models. by apply models_visit_slots.
  - rewrite all_slots_models. by apply models_visit_slots.
  - exists h'. split; [|done]. rewrite <- E. unfold general_clipping_gradient. destruct (over ms (add_m h) 0%R) as [s|]; [|done]. cbn.
    destruct (clip_if thr s _ h); [|done]. cbn. done.
Qed.

(** general_clipping_gradient does not test the norm before scaling what is not a model: an encoder's gradients are always rescaled to
    the threshold, so small gradients are enlarged *)
Theorem C34_general_enlarges_refuted t thr h : encoder_ok t -> map (fun m => length (rls m)) (e_k t) = map (fun m => length (rls m)) (e_v t) ->
  NoDup (all_addrs (encoder_models t) (e_l2 t)) -> allocated h (encoder_slots t) -> (0 < thr)%R -> (0 < gnorm h (encoder_slots t) < thr)%R ->
  exists h', general_clipping_gradient [] [] [] [t] [] thr h = Some h' /\ scaled (thr / gnorm h (encoder_slots t)) (encoder_slots t) h h' /\ gnorm h' (encoder_slots t) = thr.
Proof.
  intros Ho Hl Hn Ha Ht Hg. unfold general_clipping_gradient. cbn [over upto length for_loop mbind option_bind].
  rewrite (rd_nth [t] 0 t) by (cbn; lia). cbn [nth].
  assert (HS := Sums_encoder (sizes h) h t ltac:(done) Ho).
  rewrite (HS (fits_perm _ _ _ (symmetry (encoder_visit_slots _ Ho)) Ha)). cbn [mbind option_bind]. rewrite Rplus_0_l, (sumsq_perm _ _ _ (encoder_visit_slots _ Ho)).
  pose proof (sumsq_nonneg h (encoder_slots t)) as H0.
  assert (E1 : clip_if thr (sumsq h (encoder_slots t)) (fun d => over [] (clip_m d)) h = Some h) by (unfold clip_if; by destruct (decide _)).
  rewrite E1. cbn [mbind option_bind]. rewrite decide_False by (intros (_ & _ & ? & _); done). rewrite decide_False by lra.
  fold (gnorm h (encoder_slots t)). set (k := (thr / gnorm h (encoder_slots t))%R).
  assert (E2 : clip_encoder_general k t h = clip_encoder k t h).
  { unfold clip_encoder_general, clip_encoder, clip_heads. f_equal. apply for_loop_ext. intros i s Hi.
    destruct Ho as (_ & Hk & Hv & _).
    destruct (rd (e_q t) i) as [x|]; [|done]. cbn. rewrite !(rd_nth (e_k t) i nomodel), !(rd_nth (e_v t) i nomodel) by lia.
    destruct (clip_m k x s) as [s1|]; [|done]. cbn. destruct (clip_m k (nth i (e_k t) nomodel) s1) as [s2|]; [|done]. cbn. unfold clip_m. f_equal.
    exact (eq_trans (eq_sym (map_nth (fun m => length (rls m)) (e_k t) nomodel i)) (eq_trans (f_equal (fun l => nth i l 0) Hl) (map_nth (fun m => length (rls m)) (e_v t) nomodel i))). }
  assert (HC := Scales_encoder (sizes h) k t Ho). specialize (HC (fits_perm _ _ _ (symmetry (encoder_visit2_slots _ Ho)) Ha) h ltac:(done)).
  rewrite (rd_nth [t] 0 t) by (cbn; lia). cbn [nth]. rewrite E2, HC. cbn [mbind option_bind]. eexists. split; [reflexivity|].
  assert (Hs := scale_all_scaled k (encoder_visit2 t) (encoder_slots t) h (NoDup_all_slots _ _ Hn) (encoder_visit2_slots _ Ho)). split; [done|].
  unfold gnorm at 1. rewrite (sumsq_scaled _ _ _ _ Hs). assert (E : (gnorm h (encoder_slots t) * gnorm h (encoder_slots t) = sumsq h (encoder_slots t))%R) by (apply sqrt_sqrt; done). rewrite <- E.
  unfold k. replace (_ * _ * _)%R with (thr * thr)%R by (field; lra). apply sqrt_square. lra.
Qed.
Lemma for_loop_fail {S} (body : nat -> S -> option S) n i0 j s : i0 <= j < i0 + n -> (forall s, body j s = None) -> for_loop n i0 body s = None.
Proof.
  revert i0 s. induction n as [|n IH]; intros i0 s Hj H; [lia|]. cbn. destruct (decide (i0 = j)) as [->|?]; [by rewrite H|].
  destruct (body i0 s); [|done]. cbn. apply IH; [lia|done].
Qed.
Lemma option_bind_fail {A B} (o : option A) (f : A -> option B) : (forall x, f x = None) -> (x ← o; f x) = None.
Proof. intros H. destruct o; cbn; auto. Qed.
(** and it runs past the residual layers of v when a head's k has more of them *)
Theorem C34_general_heads_refuted t thr h i k v : e_k t !! i = Some k -> e_v t !! i = Some v -> i < e_head t -> length (rls v) < length (rls k) ->
  general_clipping_gradient [] [] [] [t] [] thr h = None.
Proof.
  intros Hk Hv Hi Hl. unfold general_clipping_gradient. cbn [over upto length for_loop mbind option_bind].
  rewrite (rd_nth [t] 0 t) by (cbn; lia). cbn [nth].
  destruct (sum_encoder h t 0%R) as [s|]; [|done]. cbn [mbind option_bind].
  assert (E1 : clip_if thr s (fun d => over [] (clip_m d)) h = Some h) by (unfold clip_if; by destruct (decide _)).
  rewrite E1. cbn [mbind option_bind]. rewrite decide_False by (intros (_ & _ & ? & _); done). destruct (decide (s < 0)%R); [done|].
  rewrite (rd_nth [t] 0 t) by (cbn; lia). cbn [nth]. unfold clip_encoder_general.
  rewrite (for_loop_fail _ _ 0 i); [done|lia|]. intros h1. destruct (rd (e_q t) i) as [x|]; [|done]. cbn [mbind option_bind]. unfold rd at 1 2. rewrite Hk, Hv. cbn [mbind option_bind].
  apply option_bind_fail. intros h2. apply option_bind_fail. intros h3. unfold clip_m'. apply option_bind_fail. intros h4. apply option_bind_fail. intros h5.
  unfold clip_rls, upto. apply (for_loop_fail _ _ _ (length (rls v))); [lia|]. intros h6. unfold rd. by rewrite lookup_ge_None_2.
Qed.

(** layer normalization: the scaling pass treats the single normalization layer as output/n_groups of them.  Above the threshold it
    runs past it *)
Theorem C34_layer_norm_refuted f b thr h : fl_only_dropout (f_cfg f) = false -> fl_mode (f_cfg f) = GRADIENT_DESCENT -> fl_noisy (f_cfg f) = false ->
  fl_norm (f_cfg f) = Some b -> bnl_train b = true -> 2 <= fl_out (f_cfg f) / f_groups f -> 0 < fl_in (f_cfg f) ->
  allocated h (fcl_slots f) -> (thr <= gnorm h (fcl_slots f))%R -> clipping_gradient (Model [f] [] []) thr h = None.
Proof.
  intros Hd Hm Hno Hn Hb Hg Hi Ha Ht. unfold clipping_gradient.
  set (V := concat (map (fun j => [(f_at f, Weights, j)] ++ (if decide (j < fl_out (f_cfg f)) then [(f_at f, Biases, j)] else [])) (seq 0 (fl_out (f_cfg f) * fl_in (f_cfg f)))) ++ both_visit (f_at f) 0 (bnl_dim b)).
  assert (HV : V ≡ₚ fcl_slots f).
  { unfold V, fcl_slots, slots. cbn [map concat fcl_trains fcl_sizes]. unfold fcl_trains. rewrite Hd, Hm, Hno, Hn, Hb. bd. cbn [andb]. rewrite concat_map_app, concat_map_single, concat_map_prefix by nia.
    rewrite both_visit_arr. rewrite ?app_nil_l, app_nil_r. unfold arr. rewrite <- !app_assoc. done. }
  assert (HS : Sums (sizes h) h (add_m h (Model [f] [] [])) (concat (map (fun _ => V) [f]) ++ [] ++ [])).
  { unfold add_m. apply Sums_seq; [|apply Sums_seq; apply Sums_plus; apply Sums_id].
    apply Sums_plus. cbn [fcls]. unfold sum_fcls. apply Sums_upto. intros x Hx. apply elem_of_list_singleton in Hx as ->. unfold sum_fcl. rewrite Hd, Hm, Hn. dm. apply Sums_seq.
    - apply Sums_loop. intros j _. apply Sums_seq; [by apply Sums_sqr|]. destruct (decide _); [by apply Sums_sqr|apply Sums_id].
    - unfold sum_bns. apply Sums_plus. eapply Sums_eq; [intros s; cbn [for_loop]; rewrite (rd_nth [b] 0 b) by (cbn; lia); cbn [nth]; rewrite Hb; reflexivity|].
      rewrite <- (app_nil_r (both_visit _ _ _)). apply Sums_seq; [by apply Sums_both|apply Sums_id]. }
  cbn [map concat] in HS. rewrite !app_nil_r in HS. rewrite (HS (fits_perm _ _ _ (symmetry HV) Ha)). cbn [mbind option_bind]. rewrite Rplus_0_l, (sumsq_perm _ _ _ HV).
  unfold clip_if. rewrite decide_True by (split; [apply sumsq_nonneg|done]). unfold clip_m, clip_m'. cbn [fcls over upto length for_loop]. rewrite (rd_nth [f] 0 f) by (cbn; lia). cbn [nth].
  unfold clip_fcl at 1. rewrite Hd, Hm, Hn, Hb. dm. set (body := fun j h0 => mul _ _ Weights j h0 ≫= _). destruct (for_loop _ _ body h) as [h1|]; [|done]. cbn [mbind option_bind].
  unfold clip_bns. rewrite (for_loop_fail _ _ 0 1); [done|lia|done].
Qed.

Lemma over1 {A S} (x : A) (body : A -> S -> option S) s : over [x] body s = body x s.
Proof. unfold over, upto. cbn. by destruct (body x s). Qed.
Lemma over_map {A B S} (g : A -> B) l (body : B -> S -> option S) s : over (map g l) body s = over l (fun x => body (g x)) s.
Proof.
  unfold over, upto. rewrite map_length. apply for_loop_ext. intros i s' Hi. unfold rd. change (map g l) with (g <$> l). rewrite list_lookup_fmap. by destruct (l !! i).
Qed.
Lemma elem_slots a ns t sz p : p ∈ slots a ns t sz <-> p.1.1 = a /\ p.1.2 ∈ ns /\ t p.1.2 = true /\ p.2 < sz p.1.2.
Proof.
  unfold slots. split.
  - intros Hp. apply elem_of_list_In, in_concat in Hp as (l & Hl & Hp). apply in_map_iff in Hl as (nm & <- & Hn). destruct (t nm) eqn:E; [|done]. unfold arr in Hp. apply in_map_iff in Hp as (i & <- & Hi). cbn. apply in_seq in Hi.
    split_and!; try done; [by apply elem_of_list_In|lia].
  - destruct p as [[a' nm] i]. cbn. intros (-> & Hn & Ht & Hi). apply elem_of_list_In, in_concat. exists (arr a nm (sz nm)). split.
    + apply in_map_iff. exists nm. rewrite Ht. split; [done|by apply elem_of_list_In].
    + apply in_map_iff. exists i. split; [done|]. apply in_seq. lia.
Qed.
Lemma gnorm_ge h S p : p ∈ S -> (Rabs (get h p) <= gnorm h S)%R.
Proof.
  intros Hp. unfold gnorm. rewrite <- sqrt_Rsqr_abs. apply sqrt_le_1_alt. unfold Rsqr. induction Hp as [p S|p q S Hp IH]; unfold sumsq in *; cbn [map]; rewrite suml_cons.
  - pose proof (sumsq_nonneg h S) as H. unfold sumsq in H. lra.
  - pose proof (Rle_0_sqr (get h q)) as H. unfold Rsqr in H. lra.
Qed.
Lemma denoised_subset m p : p ∈ model_slots (denoised m) -> p ∈ model_slots m /\ p.1.2 <> NoisyWeights /\ p.1.2 <> NoisyBiases.
Proof.
  assert (Hc : forall f, p ∈ cl_slots f -> p.1.2 <> NoisyWeights /\ p.1.2 <> NoisyBiases).
  { intros f Hp. unfold cl_slots in Hp. apply elem_slots in Hp as (_ & Hn & Ht & _). split; intros E; rewrite E in Ht; unfold cl_trains in Ht; by rewrite andb_false_r in Ht. }
  unfold model_slots, denoised. cbn [fcls cls rls]. rewrite !elem_of_app. intros [Hp|[Hp|Hp]].
  - rewrite map_map in Hp. apply elem_of_list_In, in_concat in Hp as (l & Hl & Hp). apply in_map_iff in Hl as (f & <- & Hf). apply elem_of_list_In in Hp. unfold fcl_slots in Hp. apply elem_slots in Hp as (Ha & Hn & Ht & Hs).
    split.
    + left. apply elem_of_list_In, in_concat. exists (fcl_slots f). split; [by apply in_map|]. apply elem_of_list_In. unfold fcl_slots. apply elem_slots. split_and!; try done.
      unfold fcl_trains in *. cbn in Ht. destruct (fl_only_dropout (f_cfg f)); [done|]. destruct (p.1.2); try done; by rewrite andb_false_r in Ht.
    + unfold fcl_trains in Ht. cbn in Ht. destruct (fl_only_dropout (f_cfg f)); [done|]. split; intros E; rewrite E in Ht; by rewrite andb_false_r in Ht.
  - split; [tauto|]. apply elem_of_list_In, in_concat in Hp as (l & Hl & Hp). apply in_map_iff in Hl as (f & <- & Hf). apply elem_of_list_In in Hp. by eapply Hc.
  - split; [tauto|]. apply elem_of_list_In, in_concat in Hp as (l & Hl & Hp). apply in_map_iff in Hl as (f & <- & Hf). apply elem_of_list_In in Hp. by eapply Hc.
Qed.
(** noisy layers: the gradients of the noise parameters are neither counted nor scaled, so clipping leaves the norm above the
    threshold whenever one of them is larger than it *)
Theorem C34_noisy_refuted m thr h p : plain (denoised m) -> NoDup (addrs m) -> allocated h (model_slots m) -> (0 < thr)%R ->
  p ∈ model_slots m -> p.1.2 = NoisyWeights \/ p.1.2 = NoisyBiases -> (thr < Rabs (get h p))%R ->
  exists h', clipping_gradient m thr h = Some h' /\ clipped thr (model_slots (denoised m)) h h' /\ get h' p = get h p /\ (thr < gnorm h' (model_slots m))%R.
Proof.
  intros Hp Hn Ha Ht Hin Hnm Hg.
  assert (Ha' : allocated h (model_slots (denoised m))).
  { apply list.Forall_forall. intros q Hq. apply denoised_subset in Hq as [Hq _]. unfold allocated in Ha. rewrite list.Forall_forall in Ha. by apply Ha. }
  assert (Hn' : NoDup (addrs (denoised m))) by (unfold addrs, denoised in *; cbn [fcls cls rls] in *; by rewrite map_map).
  destruct (C34_clipping (denoised m) thr h Hp Hn' Ha' Ht) as (h' & E & Hc). exists h'. split.
  { rewrite <- E. unfold clipping_gradient.
    replace (add_m h (denoised m) 0%R) with (add_m h m 0%R) by (unfold add_m, sum_fcls, denoised; cbn [fcls cls rls]; by rewrite over_map).
    destruct (add_m h m 0%R) as [s|]; [|done]. cbn [mbind option_bind]. unfold clip_if. destruct (decide _); [|done]. unfold clip_m, clip_m', denoised. cbn [fcls cls rls]. by rewrite over_map. }
  split; [done|]. assert (Hq : get h' p = get h p).
  { destruct Hc as [[_ Hs] _]. rewrite Hs, decide_False; [done|]. intros Hd. apply denoised_subset in Hd as (_ & ? & ?). tauto. }
  split; [done|]. rewrite <- Hq in Hg. pose proof (gnorm_ge h' _ _ Hin). lra.
Qed.

(** LSTMs.  Only the scores of square layers are clipped right *)
Lemma four_perm {A B} (F : nat -> A -> B) l : concat (map (fun j => concat (map (fun g => [F g j]) (seq 0 4))) l) ≡ₚ concat (map (fun g => map (F g) l) (seq 0 4)).
Proof.
  cbn [seq map concat]. rewrite app_nil_r. rewrite (concat_map_ext _ (fun j => [F 0 j] ++ [F 1 j] ++ [F 2 j] ++ [F 3 j])) by done. rewrite !concat_map_app, !concat_map_single. done.
Qed.
Theorem C34_lstm_scores_partial ls thr h : Forall (fun f => ls_mode (l_cfg f) = EDGE_POPUP /\ ls_in (l_cfg f) = ls_out (l_cfg f)) ls -> NoDup (map l_at ls) ->
  allocated h (concat (map lstm_slots ls)) -> (0 < thr)%R ->
  exists h', clipping_gradient_rmodel ls thr h = Some h' /\ clipped thr (concat (map lstm_slots ls)) h h'.
Proof.
  intros Hf Hn Ha Ht. rewrite list.Forall_forall in Hf.
  set (V1 := fun (f : lnode) nm => concat (map (fun j => concat (map (fun g => [(l_at f, nm g, j)]) (seq 0 4))) (seq 0 (ls_out (l_cfg f) * ls_in (l_cfg f)))) : list slot).
  set (V := fun f => V1 f WScores ++ V1 f UScores).
  assert (HV : forall f, f ∈ ls -> V f ≡ₚ lstm_slots f).
  { intros f Hin. destruct (Hf f Hin) as [Hm Hs]. unfold V, V1. rewrite !(four_perm (fun g j => (l_at f, _ g, j))). unfold lstm_slots.
    rewrite (slots_none _ (groups _)) by (intros nm _; rewrite Hm; by bd). rewrite app_nil_r. cbn [seq map concat lstm_gates app]. unfold slots. cbn [map concat lstm_sizes]. unfold lstm_trains. rewrite Hm.
    repeat (rewrite bool_decide_eq_false_2 by (intros [_ ?]; discriminate)). repeat (rewrite bool_decide_eq_true_2 by (split; [lia|done])). rewrite Hs. rewrite ?app_nil_l, ?app_nil_r. fold (arr (l_at f)). unfold arr. solve_Permutation. }
  assert (HP : concat (map V ls) ≡ₚ concat (map lstm_slots ls)) by (by apply concat_map_perm).
  unfold clipping_gradient_rmodel.
  eapply (clip_run thr _ h (plus (sum_lstms h ls))) with (L1 := concat (map V ls)) (L2 := concat (map V ls)); try done.
  - rewrite <- (map_map (fun f => (l_at f, lstm_slots f)) snd). apply NoDup_blocks; [by rewrite map_map|]. apply Forall_fmap, list.Forall_forall. intros f Hin. destruct (Hf f Hin) as [Hm Hs].
    unfold compose. split; cbn [fst snd]; unfold lstm_slots; rewrite (slots_none _ (groups _)) by (intros nm _; rewrite Hm; by bd); rewrite app_nil_r.
    + apply NoDup_slots. apply (bool_decide_unpack _). vm_compute. done.
    + intros p Hp. by apply slots_in in Hp as [? _].
  - apply Sums_plus. apply Sums_upto. intros f Hin. destruct (Hf f Hin) as [Hm Hs]. unfold sum_lstm. rewrite Hm. dm. unfold V.
    eapply Sums_eq; [intros s; cbn [mbind option_bind]; reflexivity|]. apply Sums_seq; apply Sums_loop; intros j _; apply Sums_loop; intros g _; by apply Sums_sqr.
  - intros k. apply Scales_upto. intros f Hin. destruct (Hf f Hin) as [Hm Hs]. unfold clip_lstm. rewrite Hm. dm. unfold V.
    apply Scales_seq; [|unfold V1; rewrite Hs]; apply Scales_loop; intros j _; apply Scales_loop; intros g _; by apply Scales_mul.
Qed.
(** a layer with more inputs than outputs: the loop over d_recurrent_w (d_recurrent_scores) has output*input iterations instead of
    output*output and runs past the array *)
Theorem C34_lstm_reads_past_refuted ls f thr h : f ∈ ls -> ls_out (l_cfg f) < ls_in (l_cfg f) -> 0 < ls_out (l_cfg f) ->
  (ls_mode (l_cfg f) = GRADIENT_DESCENT /\ length (h (l_at f) (U 0)) = ls_out (l_cfg f) * ls_out (l_cfg f)) \/
  (ls_mode (l_cfg f) = EDGE_POPUP /\ length (h (l_at f) (UScores 0)) = ls_out (l_cfg f) * ls_out (l_cfg f)) ->
  clipping_gradient_rmodel ls thr h = None.
Proof.
  intros Hin Hio Ho Hm. unfold clipping_gradient_rmodel.
  enough (E : sum_lstms h ls = None) by (by rewrite E). unfold sum_lstms, over, upto. apply elem_of_list_lookup in Hin as [i Hi].
  apply (for_loop_fail _ _ _ i); [apply lookup_lt_Some in Hi; lia|]. intros s. unfold rd. rewrite Hi. cbn [mbind option_bind]. unfold sum_lstm.
  apply option_bind_fail. intros s1.
  assert (HF : forall nm s, length (h (l_at f) (nm 0)) = ls_out (l_cfg f) * ls_out (l_cfg f) ->
    for_loop (ls_out (l_cfg f) * ls_in (l_cfg f)) 0 (fun j s => for_loop 4 0 (fun g => sqr h (l_at f) (nm g) j) s) s = None).
  { intros nm s2 Hl. apply (for_loop_fail _ _ _ (ls_out (l_cfg f) * ls_out (l_cfg f))); [nia|]. intros s3. cbn [for_loop]. unfold sqr, rd. rewrite (lookup_ge_None_2 (h (l_at f) (nm 0))) by (rewrite Hl; lia). done. }
  destruct Hm as [[Hm Hl]|[Hm Hl]]; rewrite Hm; dm; apply option_bind_fail; intros s2; by apply (HF).
Qed.
(** the bias gradients of an LSTM are added instead of their squares: when they make the sum negative nothing is clipped, however
    large they are *)
Theorem C34_lstm_biases_refuted f thr c h : ls_mode (l_cfg f) = GRADIENT_DESCENT -> l_bns f = [] -> 0 < ls_in (l_cfg f) <= ls_out (l_cfg f) -> (c < 0)%R -> (0 < thr < - c)%R ->
  (forall g, g < 4 -> h (l_at f) (W g) = replicate (ls_out (l_cfg f) * ls_in (l_cfg f)) 0%R /\ h (l_at f) (U g) = replicate (ls_out (l_cfg f) * ls_out (l_cfg f)) 0%R /\ h (l_at f) (LBiases g) = replicate (ls_out (l_cfg f)) c) ->
  clipping_gradient_rmodel [f] thr h = Some h /\ (thr < gnorm h (lstm_slots f))%R.
Proof.
  intros Hm Hb Hio Hc Ht Hh. set (a := l_at f) in *. set (I := ls_in (l_cfg f)) in *. set (O := ls_out (l_cfg f)) in *.
  assert (H0 : forall nm n j s, (forall g, g < 4 -> h a (nm g) = replicate n 0%R) -> j < n -> for_loop 4 0 (fun g => sqr h a (nm g) j) s = Some s).
  { intros nm n j s Hz Hj. cbn [for_loop]. unfold sqr. rewrite !Hz by lia. unfold rd. rewrite !lookup_replicate_2 by done. cbn. f_equal. lra. }
  assert (HB : forall j s, j < O -> for_loop 4 0 (fun g => lin h a (LBiases g) j) s = Some (s + 4 * c)%R).
  { intros j s Hj. cbn [for_loop]. unfold lin. rewrite (proj2 (proj2 (Hh 0 ltac:(lia)))), (proj2 (proj2 (Hh 1 ltac:(lia)))), (proj2 (proj2 (Hh 2 ltac:(lia)))), (proj2 (proj2 (Hh 3 ltac:(lia)))). unfold rd. rewrite !lookup_replicate_2 by done. cbn. f_equal. lra. }
  assert (HS : exists s, sum_lstms h [f] = Some s /\ (s < 0)%R).
  { unfold sum_lstms. rewrite over1. unfold sum_lstm. rewrite Hm, Hb. dm. change (sum_bns h (l_at f) [] (length [])) with (Some 0%R). unfold plus. cbn [mbind option_bind].
    fold a I O.
    destruct (for_loop_inv (fun i s => (i = 0 /\ s = (0 + 0)%R) \/ (s < 0)%R)
      (fun j s => s ← for_loop 4 0 (fun g => sqr h a (W g) j) s; if decide (j < O) then for_loop 4 0 (fun g => lin h a (LBiases g) j) s else Some s) (O * I) 0 (0 + 0)%R) as (s1 & E1 & P1).
    - by left.
    - intros i s Hi Hs. rewrite (H0 W (O * I)); [|intros; by apply Hh|lia]. cbn [mbind option_bind]. destruct (decide (i < O)) as [Hi'|Hi'].
      + rewrite HB by done. eexists. split; [done|]. right. destruct Hs as [[_ ->]|Hs]; lra.
      + eexists. split; [done|]. destruct Hs as [[-> _]|Hs]; [lia|by right].
    - rewrite E1. cbn [mbind option_bind].
      destruct (for_loop_inv (fun i s => s = s1) (fun j s => for_loop 4 0 (fun g => sqr h a (U g) j) s) (O * I) 0 s1) as (s2 & E2 & ->); [done| |].
      + intros i s Hi ->. rewrite (H0 U (O * O)); [|intros; by apply Hh|nia]. by eexists.
      + rewrite E2. cbn [mbind option_bind]. eexists. split; [done|]. destruct P1 as [[? _]|?]; [nia|done]. }
  destruct HS as (s & E & Hs). split.
  - unfold clipping_gradient_rmodel. rewrite E. unfold plus. cbn [mbind option_bind]. unfold clip_if. by rewrite decide_False by lra.
  - assert (Hp : (a, LBiases 0, 0) ∈ lstm_slots f).
    { unfold lstm_slots. apply elem_of_app. left. apply elem_slots. cbn [fst snd]. split_and!; [done|..].
      - apply (bool_decide_unpack _). vm_compute. done.
      - unfold lstm_trains. rewrite Hm. apply bool_decide_eq_true_2. split; [lia|done].
      - unfold lstm_sizes. fold O. lia. }
    pose proof (gnorm_ge h _ _ Hp) as Hg. unfold get in Hg. cbn [fst snd] in Hg. rewrite (proj2 (proj2 (Hh 0 ltac:(lia)))) in Hg. rewrite (el_lookup _ _ c) in Hg by (apply lookup_replicate_2; lia). rewrite Rabs_left in Hg by done. lra.
Qed.

(** * The hypotheses are met *)
Definition ex_heap : heap := fun a nm =>
  match a, nm with 0, Weights => [3; 4]%R | 0, Biases => [12]%R | _, (Weights | Biases | Kernel _ | Scores | Gamma _ | Beta _ | WScores _ | UScores _) => [1]%R | _, _ => [] end.
Definition ex_dense (a : nat) : model := Model [FN a (Fcl GRADIENT_DESCENT false false 1 1 None) 1 false] [] [].
(** a dense layer with the gradients 3, 4 and 12 *)
Definition ex_model : model := Model [FN 0 (Fcl GRADIENT_DESCENT false false 2 1 None) 1 false] [] [].
(** dense, convolutional and residual layers, with group normalization and edge popup *)
Definition ex_mixed : model := Model [FN 0 (Fcl GRADIENT_DESCENT false false 2 1 None) 1 false; FN 1 (Fcl EDGE_POPUP false false 1 1 None) 1 false]
  [CN 2 (Cl GRADIENT_DESCENT true 1 1 1 1 [Bnl true 1]) false] [[CN 3 (Cl EDGE_POPUP true 1 1 1 1 []) true; CN 4 (Cl GRADIENT_DESCENT true 1 1 1 1 []) false]].
Definition ex_enc (a : nat) : encoder := Enc 1 [ex_dense a] [ex_dense (a + 1)] [ex_dense (a + 2)] (ex_dense (a + 3)) (ex_dense (a + 4)) [SN (a + 5) true].
Definition ex_dec (a : nat) : decoder := Dec (ex_enc a) 1 [ex_dense (a + 6)] [ex_dense (a + 7)] [ex_dense (a + 8)] (ex_dense (a + 9)) [SN (a + 10) true; SN (a + 11) false].
Ltac concrete := try (apply (bool_decide_unpack _); vm_compute; done).
Ltac plainly := unfold plain, fcl_plain, cl_plain; cbn; repeat first [done | lia | constructor].
Example C34_clipping_example : exists h', clipping_gradient ex_model (13 / 2) ex_heap = Some h' /\
  get h' (0, Weights, 0) = (3 / 2)%R /\ get h' (0, Weights, 1) = 2%R /\ get h' (0, Biases, 0) = 6%R /\ h' 1 Weights = [1%R].
Proof.
  destruct (C34_clipping ex_model (13 / 2) ex_heap) as (h' & E & [Hl Hs] & _); [plainly|concrete|concrete|lra|].
  assert (G : gnorm ex_heap (model_slots ex_model) = 13%R).
  { unfold gnorm. replace (sumsq ex_heap (model_slots ex_model)) with (13 * 13)%R by (cbv -[Rplus Rmult IZR]; lra). apply sqrt_square. lra. }
  rewrite G in Hs. rewrite decide_False in Hs by lra. exists h'. split; [done|].
  split; [rewrite Hs, decide_True by concrete; cbv -[Rplus Rmult Rdiv IZR]; lra|]. split; [rewrite Hs, decide_True by concrete; cbv -[Rplus Rmult Rdiv IZR]; lra|].
  split; [rewrite Hs, decide_True by concrete; cbv -[Rplus Rmult Rdiv IZR]; lra|].
  specialize (Hl 1 Weights). specialize (Hs (1, Weights, 0)). rewrite decide_False in Hs by (apply (bool_decide_unpack _); vm_compute; done). unfold get in Hs. cbn [fst snd] in Hs. cbn in Hl.
  destruct (h' 1 Weights) as [|x [|]]; try done. unfold el in Hs. cbn in Hs. by subst.
Qed.
Example C34_mixed_example : plain ex_mixed /\ NoDup (addrs ex_mixed) /\ allocated ex_heap (model_slots ex_mixed) /\ length (model_slots ex_mixed) = 11.
Proof. split_and!; [plainly|concrete..]. Qed.
Example C34_dqn_example : let d := Dqn ex_model (ex_dense 1) (ex_dense 2) (ex_dense 3) (ex_dense 4) in
  Forall plain (dqn_nets d) /\ NoDup (all_addrs (dqn_nets d) []) /\ allocated ex_heap (all_slots (dqn_nets d) []).
Proof. split_and!; [plainly|concrete..]. Qed.
Example C34_vae_example : let ms := [ex_model; ex_dense 1] in Forall plain ms /\ NoDup (all_addrs ms []) /\ allocated ex_heap (all_slots ms []).
Proof. split_and!; [plainly|concrete..]. Qed.
Example C34_encoder_example : let t := ex_enc 1 in encoder_ok t /\ NoDup (all_addrs (encoder_models t) (e_l2 t)) /\ allocated ex_heap (encoder_slots t) /\
  map (fun m => length (rls m)) (e_k t) = map (fun m => length (rls m)) (e_v t) /\ (0 < gnorm ex_heap (encoder_slots t) < 4)%R.
Proof.
  split; [unfold encoder_ok; plainly|]. split; [concrete|]. split; [concrete|]. split; [done|].
  unfold gnorm. replace (sumsq _ _) with 11%R by (cbv -[Rplus Rmult IZR]; lra). split; [apply sqrt_lt_R0; lra|]. rewrite <- (sqrt_square 4) by lra. apply sqrt_lt_1; lra.
Qed.
Example C34_decoder_example : let t := ex_dec 1 in decoder_ok t /\ NoDup (all_addrs (decoder_models t) (e_l2 (d_e t) ++ d_l2 t)) /\ allocated ex_heap (decoder_slots t).
Proof. split_and!; [unfold decoder_ok, encoder_ok; plainly|concrete..]. Qed.
Example C34_transformer_example : let t := Tr [ex_enc 1; ex_enc 7] [ex_dec 20] in Forall encoder_ok (te t) /\ Forall decoder_ok (td t) /\
  NoDup (all_addrs (transf_models t) (transf_l2 t)) /\ allocated ex_heap (all_slots (transf_models t) (transf_l2 t)).
Proof. split_and!; [repeat first [apply list.Forall_cons; split | by apply list.Forall_nil]; unfold decoder_ok, encoder_ok; plainly|repeat first [apply list.Forall_cons; split | by apply list.Forall_nil]; unfold decoder_ok, encoder_ok; plainly|concrete..]. Qed.
(** a head whose k has a residual layer and whose v has none *)
Example C34_general_heads_example : let k := Model [] [] [[CN 3 (Cl GRADIENT_DESCENT true 1 1 1 1 []) false]] in
  general_clipping_gradient [] [] [] [Enc 1 [ex_dense 1] [k] [ex_dense 2] (ex_dense 4) (ex_dense 5) []] [] 1 ex_heap = None.
Proof. intros k. apply (C34_general_heads_refuted _ _ _ 0 k (ex_dense 2)); [done|done|cbn; lia|cbn; lia]. Qed.
(** a normalized dense layer with two outputs *)
Example C34_layer_norm_example : let h : heap := fun _ nm => match nm with Weights | Biases => [3; 4]%R | Gamma 0 | Beta 0 => [0]%R | _ => [] end in
  clipping_gradient (Model [FN 0 (Fcl GRADIENT_DESCENT false false 1 2 (Some (Bnl true 1))) 1 false] [] []) 1 h = None.
Proof.
  intros h. eapply C34_layer_norm_refuted; try done; try (cbn; lia); try concrete.
  eapply Rle_trans; [|apply (gnorm_ge h _ (0, Weights, 0)); concrete]. cbv -[Rplus Rmult IZR Rabs Rle]. rewrite Rabs_right; lra.
Qed.
(** a noisy layer *)
Example C34_noisy_example : let h : heap := fun _ nm => match nm with Weights | Biases => [1]%R | NoisyWeights | NoisyBiases => [5]%R | _ => [] end in
  let m := Model [FN 0 (Fcl GRADIENT_DESCENT false true 1 1 None) 1 false] [] [] in
  exists h', clipping_gradient m 1 h = Some h' /\ (1 < gnorm h' (model_slots m))%R.
Proof.
  intros h m. destruct (C34_noisy_refuted m 1 h (0, NoisyWeights, 0)) as (h' & E & _ & _ & Hg); [plainly|concrete|concrete|lra|concrete|by left| |by exists h'].
  cbv -[Rplus Rmult IZR Rabs Rlt]. rewrite Rabs_right; lra.
Qed.
Example C34_lstm_scores_example : let ls := [LN 1 (Lstm EDGE_POPUP 1 1) []; LN 2 (Lstm EDGE_POPUP 1 1) []] in
  Forall (fun f => ls_mode (l_cfg f) = EDGE_POPUP /\ ls_in (l_cfg f) = ls_out (l_cfg f)) ls /\ NoDup (map l_at ls) /\ allocated ex_heap (concat (map lstm_slots ls)) /\ length (concat (map lstm_slots ls)) = 16.
Proof. split_and!; [by repeat constructor|concrete..]. Qed.
Example C34_lstm_reads_past_example : let h : heap := fun _ nm => match nm with W _ => [1; 1]%R | U _ | LBiases _ => [1]%R | _ => [] end in
  clipping_gradient_rmodel [LN 0 (Lstm GRADIENT_DESCENT 2 1) []] 1 h = None.
Proof. intros h. eapply C34_lstm_reads_past_refuted; [by left|cbn; lia|cbn; lia|left; done]. Qed.
Example C34_lstm_biases_example : let h : heap := fun _ nm => match nm with W _ | U _ => [0]%R | LBiases _ => [-100]%R | _ => [] end in
  clipping_gradient_rmodel [LN 0 (Lstm GRADIENT_DESCENT 1 1) []] 1 h = Some h.
Proof. intros h. eapply C34_lstm_biases_refuted with (c := (-100)%R); try done; try (cbn; lia); try lra. Qed.

Print Assumptions C34_clipping.
Print Assumptions C34_dqn.
Print Assumptions C34_vae.
Print Assumptions C34_encoder.
Print Assumptions C34_decoder.
Print Assumptions C34_transformer.
Print Assumptions C34_general_models_partial.
Print Assumptions C34_general_enlarges_refuted.
Print Assumptions C34_general_heads_refuted.
Print Assumptions C34_layer_norm_refuted.
Print Assumptions C34_noisy_refuted.
Print Assumptions C34_lstm_scores_partial.
Print Assumptions C34_lstm_reads_past_refuted.
Print Assumptions C34_lstm_biases_refuted.
