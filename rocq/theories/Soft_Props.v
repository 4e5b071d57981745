(** C42: soft updates of target networks *)
From Coq Require Import Reals Lra.
From Verif Require Import NumLib BaseLemmas Upd_Model Upd_Spec Net_Model Net_Spec Soft_Model Soft_Spec Soft_Proofs.
Open Scope nat_scope.

(** One layer of each kind *)
Theorem C42_fcl tau f g h : apart [PF f g] -> fits_in h [PF f g] -> exists h', slow_paste_fcl tau f g h = Some h' /\ soft_updated tau [PF f g] h h'.
Proof. intros Ha Hf. destruct (run_soft tau _ h Ha Hf) as (h' & E & S). rewrite run_one in E. by exists h'. Qed.
Theorem C42_cl tau f g h : apart [PC f g] -> fits_in h [PC f g] -> exists h', slow_paste_cl tau f g h = Some h' /\ soft_updated tau [PC f g] h h'.
Proof. intros Ha Hf. destruct (run_soft tau _ h Ha Hf) as (h' & E & S). rewrite run_one in E. by exists h'. Qed.
Theorem C42_lstm_partial tau f g h : apart [PL f g] -> fits_in h [PL f g] -> exists h', slow_paste_lstm tau f g h = Some h' /\ soft_updated tau [PL f g] h h'.
Proof. intros Ha Hf. destruct (run_soft tau _ h Ha Hf) as (h' & E & S). rewrite run_one in E. by exists h'. Qed.
Theorem C42_l2 tau f g h : apart [PS f g] -> fits_in h [PS f g] -> exists h', slow_paste_l2 tau f g h = Some h' /\ soft_updated tau [PS f g] h h'.
Proof. intros Ha Hf. destruct (run_soft tau _ h Ha Hf) as (h' & E & S). rewrite run_one in E. by exists h'. Qed.

(** Networks *)
Theorem C42_model tau m c h : alike m c -> apart (model_pairs m c) -> fits_in h (model_pairs m c) ->
  exists h', slow_paste_model tau m c h = Some h' /\ soft_updated tau (model_pairs m c) h h'.
Proof. intros Hl Ha Hf. rewrite model_run by done. by apply run_soft. Qed.
Theorem C42_rmodel_partial tau m c h : length c = length m -> apart (zip_with PL m c) -> fits_in h (zip_with PL m c) ->
  exists h', slow_paste_rmodel tau m c h = Some h' /\ soft_updated tau (zip_with PL m c) h h'.
Proof. intros Hl Ha Hf. rewrite rmodel_run by done. by apply run_soft. Qed.
Theorem C42_dqn tau m c h : alike_dqn m c -> apart (dqn_pairs m c) -> fits_in h (dqn_pairs m c) ->
  exists h', slow_paste_dqn tau m c h = Some h' /\ soft_updated tau (dqn_pairs m c) h h'.
Proof. intros Hl Ha Hf. rewrite dqn_run by done. by apply run_soft. Qed.
Theorem C42_vae tau m c h : alike_vae m c -> apart (vae_pairs m c) -> fits_in h (vae_pairs m c) ->
  exists h', slow_paste_vae tau m c h = Some h' /\ soft_updated tau (vae_pairs m c) h h'.
Proof. intros Hl Ha Hf. rewrite vae_run by done. by apply run_soft. Qed.
Theorem C42_encoder tau m c h : alike_encoder m c -> apart (encoder_pairs m c) -> fits_in h (encoder_pairs m c) ->
  exists h', slow_paste_encoder tau m c h = Some h' /\ soft_updated tau (encoder_pairs m c) h h'.
Proof. intros Hl Ha Hf. rewrite encoder_run by done. by apply run_soft. Qed.
Theorem C42_decoder tau m c h : alike_decoder m c -> apart (decoder_pairs m c) -> fits_in h (decoder_pairs m c) ->
  exists h', slow_paste_decoder tau m c h = Some h' /\ soft_updated tau (decoder_pairs m c) h h'.
Proof. intros Hl Ha Hf. rewrite decoder_run by done. by apply run_soft. Qed.
Theorem C42_transformer tau m c h : alike_transformer m c -> apart (transformer_pairs m c) -> fits_in h (transformer_pairs m c) ->
  exists h', slow_paste_transformer tau m c h = Some h' /\ soft_updated tau (transformer_pairs m c) h h'.
Proof. intros Hl Ha Hf. rewrite transformer_run by done. by apply run_soft. Qed.

(** Histories of updates from a fixed source *)
Theorem C42_model_tracks tau m c h : alike m c -> apart (model_pairs m c) -> fits_in h (model_pairs m c) -> tracks tau (model_pairs m c) (slow_paste_model tau m c) h.
Proof. intros Hl Ha Hf. apply history_tracks; [|done|done]. intros h'. by apply model_run. Qed.
Theorem C42_rmodel_tracks_partial tau m c h : length c = length m -> apart (zip_with PL m c) -> fits_in h (zip_with PL m c) -> tracks tau (zip_with PL m c) (slow_paste_rmodel tau m c) h.
Proof. intros Hl Ha Hf. apply history_tracks; [|done|done]. intros h'. by apply rmodel_run. Qed.
Theorem C42_dqn_tracks tau m c h : alike_dqn m c -> apart (dqn_pairs m c) -> fits_in h (dqn_pairs m c) -> tracks tau (dqn_pairs m c) (slow_paste_dqn tau m c) h.
Proof. intros Hl Ha Hf. apply history_tracks; [|done|done]. intros h'. by apply dqn_run. Qed.
Theorem C42_vae_tracks tau m c h : alike_vae m c -> apart (vae_pairs m c) -> fits_in h (vae_pairs m c) -> tracks tau (vae_pairs m c) (slow_paste_vae tau m c) h.
Proof. intros Hl Ha Hf. apply history_tracks; [|done|done]. intros h'. by apply vae_run. Qed.
Theorem C42_transformer_tracks tau m c h : alike_transformer m c -> apart (transformer_pairs m c) -> fits_in h (transformer_pairs m c) ->
  tracks tau (transformer_pairs m c) (slow_paste_transformer tau m c) h.
Proof. intros Hl Ha Hf. apply history_tracks; [|done|done]. intros h'. by apply transformer_run. Qed.

(** What fails.  An LSTM layer with scores and more outputs than inputs: the second sort, over the output_size*output_size scores
    of u, runs over the output_size*input_size indices of w *)
Theorem C42_lstm_refuted tau l c h : l_at (r_l l) <> l_at (r_l c) -> l_cfg (r_l c) = l_cfg (r_l l) -> has_scores_lstm l = true -> laid_out h (PL l c) ->
  length (flt h (l_at (r_l l)) D (UScores 0)) <> 0 -> ls_in (l_cfg (r_l l)) < ls_out (l_cfg (r_l l)) -> 2 <= ls_out (l_cfg (r_l l)) -> slow_paste_lstm tau l c h = None.
Proof. intros. by apply lstm_stuck. Qed.
(** The optimizer buffers of the scores of a convolution are mixed with the gradient of the source's scores *)
Theorem C42_cl_moments_refuted tau f g h k i : apart [PC f g] -> fits_in h [PC f g] -> has_scores_cl f = true -> k = D1 \/ k = D2 \/ k = D3 ->
  length (flt h (c_at f) k Scores) <> 0 -> i < params (PC f g) Scores ->
  exists h', slow_paste_cl tau f g h = Some h' /\
    get h' (c_at g) k Scores i = (tau * get h (c_at f) D Scores i + (1 - tau) * get h (c_at g) k Scores i)%R.
Proof.
  intros [Hn Ha] Hf Hsc Hk Hz Hi. destruct (Hf (PC f g)) as [Hs (L1 & L2 & L3 & L4 & L5 & L6)]; [by left|].
  assert (Hsd : c_at f <> c_at g) by (apply (Ha (PC f g) (PC f g)); by left).
  destruct (cl_layer tau f g (fun k nm => length (flt h (c_at f) k nm)) (params (PC f g)) Hsd Hs) with (h := h) as (h' & E & _ & _ & G).
  - done.
  - split; [|done]. intros k' nm. split; [done|apply L5].
  - exists h'. split; [done|]. rewrite G. unfold cl_plan, union, cond, score_plan, nn. cbn -[Nat.ltb].
    replace (match (if cv_conv (c_cfg f) then None else None) with Some x => Some x | None => None end) with (@None kind) by (by destruct (cv_conv (c_cfg f))).
    cbn -[Nat.ltb] in Hi. rewrite Hsc in *. rewrite (proj2 (Nat.ltb_lt _ _) Hi). rewrite (proj2 (Nat.eqb_neq _ _) Hz). cbn. by destruct Hk as [->|[->| ->]].
Qed.

(** ** Instances *)
Definition demo_fcl : fcl := Fcl EDGE_POPUP false true 2 3 (Some (Bnl true 3)).
Definition demo_cl : cl := Cl GRADIENT_DESCENT true 2 1 2 2 [Bnl true 4; Bnl true 4].
Definition demo_lstm : lstm := Lstm EDGE_POPUP 3 2.
Definition demo_ps : list pair :=
  [PF (FN 0 demo_fcl 0 true) (FN 1 demo_fcl 0 true); PC (CN 2 demo_cl true) (CN 3 demo_cl true);
   PL (RN (LN 4 demo_lstm [Bnl true 2]) true) (RN (LN 5 demo_lstm [Bnl true 2]) true); PS (SN 6 true) (SN 7 true)].
(** every array allocated, all entries being the address *)
Definition demo_mem (ps : list pair) : mem :=
  Mem (fun a k nm => replicate (match ps !! (a / 2) with Some p => params p nm | None => 0 end) (INR a))
    (fun a nm => seq 0 (match ps !! (a / 2) with Some p => params p nm | None => 0 end)).
Lemma demo_laid_out ps i p : ps !! i = Some p -> src p = 2 * i -> dst p = 2 * i + 1 -> laid_out (demo_mem ps) p.
Proof.
  intros E S T. assert (E1 : ps !! (src p / 2) = Some p) by (rewrite S, Nat.mul_comm, Nat.div_mul by lia; done).
  assert (E2 : ps !! (dst p / 2) = Some p) by (rewrite T, Nat.mul_comm, Nat.div_add_l, Nat.add_0_r by lia; done).
  unfold laid_out, demo_mem. cbn [flt ints]. rewrite E1, E2. repeat split; intros; rewrite ?replicate_length, ?seq_length; auto.
Qed.
Lemma demo_fits : apart demo_ps /\ fits_in (demo_mem demo_ps) demo_ps.
Proof.
  split.
  - split; [cbn; repeat constructor; set_solver|]. assert (H : Forall (fun p => Forall (fun q => src p <> dst q) demo_ps) demo_ps) by (repeat constructor; discriminate).
    intros p q Hp Hq. rewrite list.Forall_forall in H. specialize (H p Hp). rewrite list.Forall_forall in H. by apply H.
  - intros p Hp. apply elem_of_list_lookup in Hp as [i Hi]. split.
    + destruct i as [|[|[|[|i]]]]; cbn in Hi; try done; injection Hi as <-; cbn; repeat split; lia.
    + apply (demo_laid_out demo_ps i); [done|..]; destruct i as [|[|[|[|i]]]]; cbn in Hi; try done; by injection Hi as <-.
Qed.
Definition demo_model (a : nat) : model := Model [FN a demo_fcl 0 true] [CN (a + 2) demo_cl true] [[CN (a + 4) demo_cl true]; [CN (a + 6) demo_cl true; CN (a + 8) demo_cl true]].
Lemma demo_model_fits : let ps := model_pairs (demo_model 0) (demo_model 1) in alike (demo_model 0) (demo_model 1) /\ apart ps /\ fits_in (demo_mem ps) ps.
Proof.
  intros ps. split; [done|]. split.
  - split; [cbn; repeat constructor; set_solver|]. assert (H : Forall (fun p => Forall (fun q => src p <> dst q) ps) ps) by (repeat constructor; discriminate).
    intros p q Hp Hq. rewrite list.Forall_forall in H. specialize (H p Hp). rewrite list.Forall_forall in H. by apply H.
  - intros p Hp. apply elem_of_list_lookup in Hp as [i Hi]. split.
    + destruct i as [|[|[|[|[|i]]]]]; cbn in Hi; try done; injection Hi as <-; cbn; repeat split; lia.
    + apply (demo_laid_out ps i); [done|..]; destruct i as [|[|[|[|[|i]]]]]; cbn in Hi; try done; by injection Hi as <-.
Qed.
(** a concrete pair of networks meets the hypotheses, and 2 * 3 weights, scores, ... of the first layer are parameters *)
Example C42_model_instance : exists h', slow_paste_model (1/4) (demo_model 0) (demo_model 1) (demo_mem (model_pairs (demo_model 0) (demo_model 1))) = Some h' /\
  get h' 1 Val Scores 5 = (3/4)%R /\ get h' 3 Val (Kernel 1) 3 = (11/4)%R /\ get h' 9 Val Biases 1 = (35/4)%R.
Proof.
  destruct demo_model_fits as (Hl & Ha & Hf). destruct (C42_model (1/4) _ _ _ Hl Ha Hf) as (h' & E & V & _). exists h'. split; [done|].
  split; [|split].
  - etransitivity; [apply (V (PF (FN 0 demo_fcl 0 true) (FN 1 demo_fcl 0 true)) Scores 5); [by left|cbn; lia]|cbn; lra].
  - etransitivity; [apply (V (PC (CN 2 demo_cl true) (CN 3 demo_cl true)) (Kernel 1) 3); [by right; left|cbn; lia]|cbn; lra].
  - etransitivity; [apply (V (PC (CN 8 demo_cl true) (CN 9 demo_cl true)) Biases 1); [by right; right; right; right; left|cbn; lia]|cbn; lra].
Qed.
Example C42_layers_instance : apart demo_ps /\ fits_in (demo_mem demo_ps) demo_ps.
Proof. apply demo_fits. Qed.
Example C42_tracks_instance : tracks (1/4) (model_pairs (demo_model 0) (demo_model 1)) (slow_paste_model (1/4) (demo_model 0) (demo_model 1)) (demo_mem (model_pairs (demo_model 0) (demo_model 1))).
Proof. destruct demo_model_fits as (Hl & Ha & Hf). by apply C42_model_tracks. Qed.
(** an LSTM layer with scores, 1 input and 2 outputs *)
Example C42_lstm_refuted_instance : let l a := RN (LN a (Lstm EDGE_POPUP 1 2) []) true in
  slow_paste_lstm (1/4) (l 0) (l 1) (demo_mem [PL (l 0) (l 1)]) = None.
Proof.
  intros l. apply C42_lstm_refuted; cbn; try lia; try done.
  by apply (demo_laid_out _ 0).
Qed.

Print Assumptions C42_fcl.
Print Assumptions C42_cl.
Print Assumptions C42_lstm_partial.
Print Assumptions C42_model_tracks.
Print Assumptions C42_transformer_tracks.
Print Assumptions C42_lstm_refuted.
Print Assumptions C42_cl_moments_refuted.
