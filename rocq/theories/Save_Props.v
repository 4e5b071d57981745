(** C41: what save functions write, load functions read back.

    [round_trip save load x] (Save_Spec): whatever the file already holds, saving x appends bytes to it; loading where these bytes begin gives x,
    bit for bit, and leaves the file where they end, whatever follows.  [reach_...]: the object was made by its constructor, from any arguments,
    and then its parameters took any values. *)
From Coq Require Import Sorted.
From Verif Require Import Save_Model Save_Spec Save_Proofs Save2_Model Save2_Spec Save2_Proofs BaseLemmas.
Open Scope Z_scope.

(** * Layers *)
Theorem C41_normalization_layers b : reach_bn b -> round_trip save_bn load_bn b.
Proof. apply round_trip_bn. Qed.
Theorem C41_convolutional_layers rnd ind f : reach_cl f -> round_trip save_cl (load_cl rnd ind) f.
Proof. apply round_trip_cl. Qed.
Theorem C41_residual_layers rnd ind r : reach_rl r -> round_trip save_rl (load_rl rnd ind) r.
Proof. apply round_trip_rl. Qed.
Theorem C41_l2_layers root l : reach_l2 l -> round_trip save_l2 (load_l2 root) l.
Proof. apply round_trip_l2. Qed.
Theorem C41_recurrent_layers rnd l : reach_lstm l -> round_trip save_lstm (load_lstm rnd) l.
Proof. apply round_trip_lstm. Qed.
(** Everything of a fully connected layer comes back but k_percentage, the share of the weights that edge popup keeps: it is 1 again. *)
Theorem C41_fully_connected_layers_partial rnd nz f : reach_fcl f -> round_trip_to save_fcl (load_fcl rnd nz) f (with_k f1 f).
Proof. apply round_trip_fcl. Qed.
Lemma round_trip_unique {A} save load (x y z : A) : round_trip_to save load x y -> round_trip_to save load x z -> y = z.
Proof.
  intros (b & S & L) (b' & S' & L'). specialize (S []). specialize (S' []). rewrite S in S'. injection S' as <-. specialize (L []). specialize (L' []).
  rewrite L in L'. congruence.
Qed.
Theorem C41_fully_connected_k_percentage_refuted rnd nz f : reach_fcl f -> (round_trip save_fcl (load_fcl rnd nz) f <-> f_k f = f1).
Proof.
  intros H. split.
  - intros R. pose proof (round_trip_unique _ _ _ _ _ R (round_trip_fcl rnd nz f H)) as E. by rewrite E.
  - intros E. unfold round_trip. replace f with (with_k f1 f) at 2; [by apply round_trip_fcl|]. rewrite <- E. by destruct f.
Qed.
(** A layer turned into a dropout layer by set_fcl_only_dropout can be saved; loading what was written exits, whatever follows in the file. *)
Theorem C41_only_dropout_refuted f g rnd nz : reach_fcl f -> set_fcl_only_dropout f = Some g -> f_mode (f_cfg f) = STANDARD ->
  exists bytes, (forall w, save_fcl g w = Some (w ++ bytes)) /\ forall rest, load_fcl rnd nz (bytes ++ rest) = None.
Proof.
  intros H Hg Hm. pose proof (reach_fcl_ok _ H) as [Hr Hn Hw Hb Ha Hno He Hl]. unfold set_fcl_only_dropout in Hg. case_decide as Hd; [done|]. injection Hg as <-.
  assert (Hdr : f_drop (f_cfg f) <> NO_DROPOUT) by tauto.
  assert (Hnn : f_norm (f_cfg f) <> LAYER_NORMALIZATION).
  { intros En. revert Hr. unfold fcl_rejected. rewrite !orb_false_iff, !bool_decide_eq_false. intros ((_ & ((_ & Hx) & _)) & _). apply Hx. rewrite En.
    rewrite decide_False by done. done. }
  set (c := f_cfg f) in *. exists [f_mode c; f_groups c; f_norm c; ONLY_DROPOUT; f_train c; f_in c; f_out c; f_layer c; f_drop c; f_act c; f_thr c].
  assert (Em : bool_decide (STANDARD = NOISY) = false) by done. assert (En : bool_decide (f_norm c = LAYER_NORMALIZATION) = false) by (by apply bool_decide_eq_false).
  split.
  - intros w. unfold save_fcl, fwrites, fcl_edge. cbn [f_cfg f_ff f_mode f_norm f_train f_ln f_groups f_in f_out f_layer f_drop f_act f_thr]. rewrite Hm, Em, En. done.
  - intros rest. unfold load_fcl. rewrite Hm. cbn -[fully_connected freadp]. unfold fully_connected.
    assert (Hrej : fcl_rejected (Fcfg (f_in c) (f_out c) (f_layer c) (f_drop c) (f_act c) (f_thr c) (f_groups c) (f_norm c) (f_train c) ONLY_DROPOUT STANDARD) = true).
    { unfold fcl_rejected. cbn [f_ff]. rewrite !orb_true_iff. left. left. left. right. apply bool_decide_eq_true. intros Hx. set_unfold in Hx.
      unfold ONLY_DROPOUT, FULLY_FEED_FORWARD, EDGE_POPUP in Hx. lia. }
    rewrite Hrej. done.
Qed.
(** A layer whose training mode is FREEZE_BIASES, which the backpropagation handles, is saved and never loaded. *)
Lemma fwrite_app a n w w' : fwrite a n w = Some w' -> exists t, w' = w ++ t.
Proof. unfold fwrite. destruct a as [l|]; [|done]. cbn. case_decide; [|done]. intros [= <-]. by eexists. Qed.
Lemma save_bn_app b w w' : save_bn b w = Some w' -> exists t, w' = w ++ t.
Proof.
  unfold save_bn, fwrites. cbn -[fwrite]. intros H. apply bind_Some in H as (w1 & (t1 & ->)%fwrite_app & H). apply fwrite_app in H as (t2 & ->).
  eexists. by rewrite <- !app_assoc.
Qed.
Lemma save_fcl_app f w w' : save_fcl f w = Some w' -> exists t, let c := f_cfg f in
  w' = w ++ [f_mode c; f_groups c; f_norm c; f_ff c; f_train c; f_in c; f_out c; f_layer c; f_drop c; f_act c; f_thr c] ++ t.
Proof.
  unfold save_fcl, fwrites. cbv zeta. cbn [mbind option_bind]. set (w1 := w ++ _). intros H.
  assert (exists t, w' = w1 ++ t) as (t & ->); [|exists t; unfold w1; by rewrite <- app_assoc].
  apply bind_Some in H as (w2 & H2 & H). apply bind_Some in H as (w3 & H3 & H). apply bind_Some in H as (w4 & H4 & H).
  assert (exists t, w2 = w1 ++ t) as (t2 & ->).
  { destruct (bool_decide _); [|exists []; rewrite app_nil_r; congruence]. apply bind_Some in H2 as (u & (t1 & ->)%fwrite_app & H2).
    apply bind_Some in H2 as (u & (t2 & ->)%fwrite_app & (t3 & ->)%fwrite_app). eexists. by rewrite <- !app_assoc. }
  assert (exists t, w3 = (w1 ++ t2) ++ t) as (t3 & ->).
  { clear H2. destruct (bool_decide (f_mode _ = _)); [|exists []; rewrite app_nil_r; congruence]. apply bind_Some in H3 as (u & (t1 & ->)%fwrite_app & (t3 & ->)%fwrite_app).
    eexists. by rewrite <- !app_assoc. }
  assert (exists t, w4 = ((w1 ++ t2) ++ t3) ++ t) as (t4 & ->).
  { destruct (fcl_edge _); [|exists []; rewrite app_nil_r; congruence]. apply bind_Some in H4 as (u & (t1 & ->)%fwrite_app & (t4 & ->)%fwrite_app).
    eexists. by rewrite <- !app_assoc. }
  clear H2 H3 H4. destruct (bool_decide _).
  - destruct (f_ln f) as [b|].
    + apply save_bn_app in H as (t5 & ->). eexists. by rewrite <- !app_assoc.
    + injection H as <-. eexists. by rewrite <- !app_assoc.
  - injection H as <-. eexists. by rewrite <- !app_assoc.
Qed.
Theorem C41_freeze_biases_refuted f rnd nz w w' : f_train (f_cfg f) = FREEZE_BIASES -> save_fcl f w = Some w' ->
  exists bytes, w' = w ++ bytes /\ forall rest, load_fcl rnd nz (bytes ++ rest) = None.
Proof.
  intros Ht (t & ->)%save_fcl_app. cbv zeta. eexists. split; [reflexivity|]. intros rest. rewrite Ht. rewrite <- app_assoc. set (c := f_cfg f).
  unfold load_fcl. cbn -[fully_connected freadp copy_fcl_params]. unfold fully_connected.
  assert (Hrej : forall a b d e f g h i j k, fcl_rejected (Fcfg a b d e f g h i FREEZE_BIASES j k) = true).
  { intros. unfold fcl_rejected. cbn [f_train]. rewrite !orb_true_iff. left. left. left. left. right. apply bool_decide_eq_true. intros Hx. set_unfold in Hx.
    unfold EDGE_POPUP, FREEZE_BIASES, FREEZE_TRAINING, GRADIENT_DESCENT, ONLY_FF in Hx. lia. }
  rewrite Hrej.
  destruct (if bool_decide (f_ff c <> ONLY_DROPOUT) then _ else _) as [[p w1]|]; [|done]. cbn -[freadp].
  destruct (if bool_decide (f_mode c = NOISY) then _ else _) as [[q w2]|]; [|done]. cbn -[freadp].
  destruct (if bool_decide (f_ff c <> ONLY_DROPOUT) && _ then _ else _) as [[e w3]|]; done.
Qed.

(** * Networks *)
Theorem C41_models_partial r m : reach_model m -> round_trip_to save_model (load_model_opened r) m (model_with_k f1 m).
Proof. apply round_trip_model. Qed.
(** If no layer has another k_percentage than 1, everything comes back. *)
Theorem C41_models r m : reach_model m -> Forall (fun f => f_k f = f1) (m_fcls m) -> round_trip save_model (load_model_opened r) m.
Proof.
  intros H Hk. unfold round_trip. replace m with (model_with_k f1 m) at 2; [by apply round_trip_model|]. unfold model_with_k.
  replace (with_k f1 <$> m_fcls m) with (m_fcls m); [by destruct m|]. induction Hk as [|f l E _ IH]; [done|]. cbn. rewrite <- IH, <- E. by destruct f.
Qed.
(** the same through a file of its own *)
Theorem C41_load_model_partial r m : reach_model m -> exists w, save_model m [] = Some w /\ load_model r w = Some (model_with_k f1 m).
Proof.
  intros H. destruct (round_trip_model r m H) as (b & S & L). exists b. split; [apply S|]. unfold load_model. specialize (L []). rewrite app_nil_r in L. by rewrite L.
Qed.
(** Several objects in one file: saved one after the other, they load one after the other. *)
Theorem C41_one_after_the_other {A B} (saveA : A -> file -> option file) loadA (saveB : B -> file -> option file) loadB x x' y y' :
  round_trip_to saveA loadA x x' -> round_trip_to saveB loadB y y' ->
  round_trip_to (fun p w => w ← saveA p.1 w; saveB p.2 w) (fun w => '(a, w) ← loadA w; '(b, w) ← loadB w; Some ((a, b), w)) (x, y) (x', y').
Proof.
  intros (b & S & L) (b' & S' & L'). exists (b ++ b'). split.
  - intros w. cbn. rewrite S. cbn. rewrite S'. by rewrite <- app_assoc.
  - intros rest. rewrite <- app_assoc, L. cbn. rewrite L'. done.
Qed.
Theorem C41_lists {A} (save : A -> file -> option file) load (g : A -> A) l : Forall (fun x => round_trip_to save load x (g x)) l ->
  round_trip_to (fun l => save_all (Z.of_nat (length l)) l save) (load_all (Z.of_nat (length l)) load) l (g <$> l).
Proof. intros H. destruct (round_trip_list _ _ _ _ H) as (b & S & L). by exists b. Qed.
(** But save_model appends to n.bin, and load_model reads its beginning: after a second save the first network is the one that is loaded. *)
Theorem C41_second_save_refuted r m1 m2 : reach_model m1 -> reach_model m2 ->
  exists w1 w2, save_model m1 [] = Some w1 /\ save_model m2 w1 = Some w2 /\ load_model r w2 = Some (model_with_k f1 m1).
Proof.
  intros H1 H2. destruct (round_trip_model r m1 H1) as (b1 & S1 & L1). destruct (round_trip_model r m2 H2) as (b2 & S2 & L2).
  exists b1, (b1 ++ b2). split; [apply S1|]. split; [apply S2|]. unfold load_model. by rewrite L1.
Qed.
(** save_model_given_directory writes the header in the directory and the layers in the current directory: neither file can be loaded. *)
Theorem C41_given_directory_refuted r m dw w : reach_model m -> save_model_given_directory m [] [] = Some (dw, w) -> load_model r dw = None.
Proof.
  intros H Hs. unfold save_model_given_directory, fwrites in Hs. cbn [mbind option_bind app] in Hs. apply bind_Some in Hs as (w' & _ & [= <- _]).
  assert (Hne : m_rls m <> [] \/ m_cls m <> [] \/ m_fcls m <> []).
  { destruct H as (layers & rls & cls & fcls & m0 & Rr & Rc & Rf & Hso & H & Hl).
    pose proof (network_again _ _ _ _ _ _ Hso H Hl) as Hn. unfold network in Hn. apply bind_Some in Hn as ([] & Hx%reject_inv%bool_decide_eq_false & _).
    destruct (m_rls m); [|by left]. destruct (m_cls m); [|right; by left]. destruct (m_fcls m); [|right; by right]. exfalso. apply Hx. by right. }
  unfold load_model, load_model_opened, model_header. cbn -[load_all network Z.of_nat].
  assert (Hz : forall (A : Type) (ld : file -> option (A * file)) n, ld [] = None -> load_all (Z.of_nat n) ld [] = if decide (n = 0%nat) then Some ([], []) else None).
  { intros A ld n Hld. unfold load_all. rewrite Nat2Z.id. destruct n; [done|]. cbn [for_loop snd]. rewrite Hld. done. }
  rewrite Hz by done. destruct (m_rls m); [|done]. rewrite decide_True by done. cbn -[load_all network Z.of_nat].
  rewrite Hz by done. destruct (m_cls m); [|done]. rewrite decide_True by done. cbn -[load_all network Z.of_nat].
  rewrite Hz by done. destruct (m_fcls m); [|done]. destruct Hne as [?|[?|?]]; done.
Qed.

(** * Recurrent networks, transformers, dueling networks, EfficientZero models, autoencoders *)
Theorem C41_recurrent_networks rnd m : reach_rmodel m -> round_trip save_rmodel (load_rmodel_opened rnd) m.
Proof. apply round_trip_rmodel. Qed.
(** The configuration excluded by reach_lstm: saving reads pointers that were never set. *)
Theorem C41_recurrent_mixed_edge_popup_refuted l w : made_lstm l -> l_ff (l_cfg l) = EDGE_POPUP -> l_train (l_cfg l) <> EDGE_POPUP -> save_lstm l w = None.
Proof.
  intros (rnd & a & l0 & H & (Hc & Hg & He & Hb)) Hff Htr. unfold recurrent_lstm in H.
  apply bind_Some in H as ([] & _ & H). apply bind_Some in H as ([] & _ & H). apply bind_Some in H as ([] & _ & H). apply bind_Some in H as ([] & _ & H).
  apply bind_Some in H as (bns & _ & H). cbv zeta in H. apply (inj Some) in H. rewrite <- H in Hc, He. cbn [l_cfg l_edge] in Hc, He. rewrite <- Hc in He.
  assert (Ed : lstm_edge (l_cfg l) = true) by (unfold lstm_edge; rewrite (bool_decide_eq_true_2 (l_ff _ = _)) by done; by rewrite orb_true_r).
  rewrite Ed in He. rewrite Hc in He, Htr. cbn [l_train] in He, Htr. rewrite decide_False in He by done.
  unfold save_lstm. cbv zeta. cbn [mbind option_bind fwrites]. destruct (save_all 4 (l_gates l) _ _) as [w1|]; [|done]. cbn [mbind option_bind]. rewrite Ed.
  unfold save_all. change (Z.to_nat 4) with 4%nat. cbn [for_loop]. cbn in He. inversion He as [|x y xs ys Hx _ E1 E2]; subst.
  inversion Hx; subst. unfold rd. cbn. done.
Qed.
Theorem C41_encoders_partial r root t : reach_encoder t -> round_trip_to save_encoder (load_encoder r root) t (encoder_with_k f1 t).
Proof. apply round_trip_encoder. Qed.
Theorem C41_decoders_partial r root t : reach_decoder t -> round_trip_to save_decoder (load_decoder r root) t (decoder_with_k f1 t).
Proof. apply round_trip_decoder. Qed.
(** a transformer comes back when it has encoders only *)
Theorem C41_transformers_partial r root addr te conn : Forall reach_encoder te -> te <> [] ->
  round_trip_to (save_transf addr) (load_transf r root) (Transformer te [] conn) (Transformer (encoder_with_k f1 <$> te) [] None).
Proof. apply round_trip_transf. Qed.
(** with one decoder and one encoder, the connection that is loaded is part of a memory address, whatever the connection was; with more encoders
    loading writes out of bounds; with more decoders saving exits *)
Theorem C41_transformers_refuted r root addr :
  (forall e d row, reach_encoder e -> reach_decoder d ->
     round_trip_to (save_transf addr) (load_transf r root) (Transformer [e] [d] (Some [row]))
       (Transformer [encoder_with_k f1 e] [decoder_with_k f1 d] (Some [[addr 0%nat]])))
  /\ (forall te d conn, Forall reach_encoder te -> reach_decoder d -> (2 <= length te)%nat ->
       exists bytes, (forall w, save_transf addr (Transformer te [d] (Some conn)) w = Some (w ++ bytes)) /\ forall rest, load_transf r root (bytes ++ rest) = None)
  /\ (forall te td conn w, te <> [] -> (2 <= length td)%nat -> save_transf addr (Transformer te td (Some conn)) w = None).
Proof. split; [intros; by apply round_trip_transf_1|]. split; [intros; by apply transf_overflows|intros; by apply save_transf_exits]. Qed.
Theorem C41_dueling_networks_partial r d : reach_dqn d -> round_trip_to save_dqn (load_dqn r) d (dqn_with_k f1 d).
Proof. apply round_trip_dqn. Qed.
(** save_dueling_categorical_dqn_given_directory: the file in the directory holds no network *)
Theorem C41_dueling_given_directory_refuted r d dw w : save_dqn_given_directory d [] [] = Some (dw, w) -> load_dqn r dw = None.
Proof.
  intros H. unfold save_dqn_given_directory, fwrites in H. cbn [mbind option_bind app] in H. apply bind_Some in H as (w' & _ & [= <- _]).
  unfold load_dqn, dqn_header. cbn. done.
Qed.
Theorem C41_efficientzero_partial r batch m : reach_ez m -> 1 <= batch -> round_trip_to save_ez (load_ez r batch) m (ez_with_k f1 batch m).
Proof. apply round_trip_ez. Qed.
(** the latent size is not saved, but it is the input size of the decoder *)
Theorem C41_autoencoders_partial r v : reach_vae v -> v_latent v = first_size (v_dec v) ->
  exists bn bm, (forall wn wm, save_vae v wn wm = Some (wn ++ bn, wm ++ bm)) /\ load_vae r bn bm = Some (vae_with_k f1 v).
Proof. apply round_trip_vae. Qed.
(** saved with n = m, in one file: the decoder that is loaded is the encoder *)
Theorem C41_autoencoders_one_file_refuted r v : reach_vae v ->
  exists w, (w1 ← save_model (v_enc v) []; save_model (v_dec v) w1) = Some w /\ forall v', load_vae r w w = Some v' -> v_dec v' = model_with_k f1 (v_enc v).
Proof. intros H. destruct (vae_one_file r v H) as (_ & w & _ & H1 & H2). by exists w. Qed.
(** The content of a vector never comes back: the loaded vector has none. *)
Theorem C41_vectors_refuted v l : ve_v v = Some l -> 0 < ve_size v -> Z.of_nat (length l) = ve_size v ->
  ~ round_trip save_vector load_vector v /\ exists bytes, (forall w, save_vector v w = Some (w ++ bytes))
    /\ forall rest v' rest', load_vector (bytes ++ rest) = Some (v', rest') -> ve_v v' = None.
Proof.
  intros E H1 H2. pose proof (vector_loses v) as Hv. assert (Hv' := Hv ltac:(intros l'; rewrite E; intros [= <-]; done)). clear Hv.
  split.
  - intros R. pose proof (round_trip_unique _ _ _ _ _ R Hv') as X. rewrite X in E. done.
  - destruct Hv' as (b & S & L). exists b. split; [done|]. intros rest v' rest'. rewrite L. by intros [= <- <-].
Qed.
Theorem C41_vectors_without_content v : ve_v v = None -> round_trip save_vector load_vector v.
Proof.
  intros E. unfold round_trip. assert (Hv := vector_loses v ltac:(intros l; by rewrite E)). rewrite <- E in Hv at 1. by destruct v.
Qed.

(** * Concrete objects that meet the hypotheses *)
Ltac built e := let t := eval vm_compute in e in match t with Some ?x => exact x end.
Definition ex_r : rands := Rands (fun i => Z.of_nat i * 3 + 5) (fun i => 1000 - Z.of_nat i) (fun k i => Z.of_nat (k * 7 + i)) (fun i => Z.of_nat i).
(** a noisy layer 2 -> 4 with layer normalization in two groups, after training *)
Definition ex_fcfg : fcfg := Fcfg 2 4 0 NO_DROPOUT RELU f0 2 GROUP_NORMALIZATION GRADIENT_DESCENT FULLY_FEED_FORWARD NOISY.
Definition ex_fcl0 : fcl := ltac:(built (fully_connected (rd_w ex_r) (rd_nz ex_r) ex_fcfg)).
Definition ex_fcl : fcl :=
  Fcl (f_cfg ex_fcl0) f1 (Some [11; 12; 13; 14; 15; 16; 17; -18]) (Some [1; 2; 3; 4]) (f_active ex_fcl0) (Some [8; 7; 6; 5; 4; 3; 2; 1])
      (f_nb ex_fcl0) None None (Some (Bn 2 2 [5; 6] [7; 8])).
Lemma ex_fcl_reach : reach_fcl ex_fcl.
Proof. exists (rd_w ex_r), (rd_nz ex_r), ex_fcfg, ex_fcl0. split; [by vm_compute|]. repeat split. Qed.
Example ex_fcl_trip : round_trip save_fcl (load_fcl (rd_nz ex_r) (rd_w ex_r)) ex_fcl.
Proof. by apply C41_fully_connected_k_percentage_refuted; [apply ex_fcl_reach|]. Qed.
(** an edge popup layer that keeps 1/2 of its weights *)
Definition ex_edge_cfg : fcfg := Fcfg 2 2 1 DROPOUT SIGMOID 1056964608 0 NO_NORMALIZATION EDGE_POPUP EDGE_POPUP STANDARD.
Definition ex_edge0 : fcl := ltac:(built (fully_connected (rd_w ex_r) (rd_nz ex_r) ex_edge_cfg)).
Definition ex_edge : fcl := Fcl (f_cfg ex_edge0) 1056964608 (f_w ex_edge0) (f_b ex_edge0) (Some [1; 0]) None None (Some [9; 8; 7; 6]) (Some [3; 1; 2; 0]) None.
Lemma ex_edge_reach : reach_fcl ex_edge.
Proof. exists (rd_w ex_r), (rd_nz ex_r), ex_edge_cfg, ex_edge0. split; [by vm_compute|]. repeat split. Qed.
Example ex_edge_loses : ~ round_trip save_fcl (load_fcl (rd_w ex_r) (rd_nz ex_r)) ex_edge.
Proof. intros H. by apply C41_fully_connected_k_percentage_refuted in H; [|apply ex_edge_reach]. Qed.
Example ex_dropout_only : exists g, set_fcl_only_dropout ex_edge = Some g /\ save_fcl g [] <> None /\ f_mode (f_cfg ex_edge) = STANDARD.
Proof. eexists. split; [reflexivity|]. split; [by vm_compute|done]. Qed.
Example ex_freeze_biases : save_fcl (with_train FREEZE_BIASES ex_fcl) [] <> None.
Proof. by vm_compute. Qed.
(** convolutional layers: 1 x 3 x 3 -> 2 x 3 x 3 group normalized; and back to 1 x 3 x 3, without pooling *)
Definition ex_ccfg (channels n norm groups kernel padding layer : Z) : ccfg :=
  Ccfg channels 3 3 kernel kernel n 1 1 padding padding 1 1 0 0 0 0 norm RELU NO_POOLING groups CONVOLUTION GRADIENT_DESCENT FULLY_FEED_FORWARD layer.
Definition ex_c1 : cl := ltac:(built (convolutional (rd_k ex_r) (rd_ind ex_r) (ex_ccfg 1 2 GROUP_NORMALIZATION 2 3 1 0))).
Definition ex_c2 : cl := ltac:(built (convolutional (rd_k ex_r) (rd_ind ex_r) (ex_ccfg 2 1 NO_NORMALIZATION 0 1 0 1))).
Definition ex_c3 : cl := ltac:(built (convolutional (rd_k ex_r) (rd_ind ex_r) (ex_ccfg 1 1 NO_NORMALIZATION 0 2 0 2))).
Lemma bn_like_refl b : bn_like b b. Proof. repeat split. Qed.
Lemma cl_like_refl f : cl_like f f.
Proof.
  repeat split.
  - destruct (c_kernels f) as [l|]; [|done]. induction l; by constructor.
  - destruct (c_group f) as [l|]; [|done]. induction l; by constructor.
Qed.
Lemma fcl_like_refl f : fcl_like f f. Proof. repeat split. by destruct (f_ln f). Qed.
Lemma Forall2_same {A} (P : A -> A -> Prop) l : (forall x, P x x) -> Forall2 P l l.
Proof. intros H. induction l; by constructor. Qed.
Lemma rl_like_refl r : rl_like r r. Proof. repeat split. apply Forall2_same, cl_like_refl. Qed.
Lemma model_like_refl m : model_like m m.
Proof. repeat split; apply Forall2_same; [apply rl_like_refl|apply cl_like_refl|apply fcl_like_refl]. Qed.
Lemma made_cl args f : convolutional (rd_k ex_r) (rd_ind ex_r) args = Some f -> reach_cl f.
Proof. intros H. exists (rd_k ex_r), (rd_ind ex_r), args, f. split; [done|apply cl_like_refl]. Qed.
Lemma made_fcl args f : fully_connected (rd_w ex_r) (rd_nz ex_r) args = Some f -> reach_fcl f.
Proof. intros H. exists (rd_w ex_r), (rd_nz ex_r), args, f. split; [done|apply fcl_like_refl]. Qed.
Lemma ex_cl_reach : reach_cl ex_c1 /\ reach_cl ex_c2 /\ reach_cl ex_c3.
Proof.
  split; [|split]; [apply (made_cl (ex_ccfg 1 2 GROUP_NORMALIZATION 2 3 1 0))|apply (made_cl (ex_ccfg 2 1 NO_NORMALIZATION 0 1 0 1))
    |apply (made_cl (ex_ccfg 1 1 NO_NORMALIZATION 0 2 0 2))]; by vm_compute.
Qed.
Definition ex_rl : rl := Rl TANH 1 3 3 [ex_c1; ex_c2].
Lemma ex_rl_reach : reach_rl ex_rl.
Proof. split; [by eexists|]. destruct ex_cl_reach as (? & ? & ?). by repeat constructor. Qed.
(** a network: residual block (layers 0 and 1), convolution (2), fully connected (3) with k_percentage 1/2 *)
Definition ex_out : fcl := ltac:(built (fully_connected (rd_w ex_r) (rd_nz ex_r) (Fcfg 4 2 3 NO_DROPOUT NO_ACTIVATION f0 0 NO_NORMALIZATION GRADIENT_DESCENT FULLY_FEED_FORWARD STANDARD))).
Definition ex_model : model := ltac:(built (network 4 [ex_rl] [ex_c3] [with_k 1056964608 ex_out])).
Lemma ex_model_reach : reach_model ex_model.
Proof.
  exists 4, [ex_rl], [ex_c3], [with_k 1056964608 ex_out], ex_model. destruct ex_cl_reach as (? & ? & ?).
  split; [apply list.Forall_singleton, ex_rl_reach|]. split; [by apply list.Forall_singleton|]. split.
  { apply list.Forall_singleton. exists (rd_w ex_r), (rd_nz ex_r), (f_cfg ex_out), ex_out. split; [by vm_compute|repeat split]. }
  split; [apply list.Forall_singleton; vm_compute; repeat constructor; done|]. split; [by vm_compute|apply model_like_refl].
Qed.
Example ex_model_loaded : exists w, save_model ex_model [] = Some w /\ load_model ex_r w = Some (model_with_k f1 ex_model).
Proof. apply C41_load_model_partial, ex_model_reach. Qed.
Example ex_model_given_directory : exists dw w, save_model_given_directory ex_model [] [] = Some (dw, w).
Proof. do 2 eexists. by vm_compute. Qed.
(** A residual block that lists its layers in another order than their indices: network sorts them after its checks, so it is saved with the
    layers sorted, and the check of load_model, on the sorted layers, exits. *)
Definition ex_u0 : cl := ltac:(built (convolutional (rd_k ex_r) (rd_ind ex_r) (ex_ccfg 1 1 NO_NORMALIZATION 0 1 0 0))).
Definition ex_u1 : cl := ltac:(built (convolutional (rd_k ex_r) (rd_ind ex_r) (ex_ccfg 1 1 NO_NORMALIZATION 0 3 0 1))).
Theorem C41_unsorted_residual_refuted : exists rls m w, Forall reach_rl rls /\ network 2 rls [] [] = Some m /\ save_model m [] = Some w /\
  forall r, load_model r w = None.
Proof.
  exists [Rl RELU 1 3 3 [ex_u1; ex_u0]]. do 2 eexists. split.
  { apply list.Forall_singleton. split; [by eexists|]. repeat apply list.Forall_cons_2; [..|done];
      [apply (made_cl (ex_ccfg 1 1 NO_NORMALIZATION 0 3 0 1))|apply (made_cl (ex_ccfg 1 1 NO_NORMALIZATION 0 1 0 0))]; by vm_compute. }
  split; [vm_compute; reflexivity|]. split; [vm_compute; reflexivity|]. intros r. vm_compute. reflexivity.
Qed.
(** recurrent layers: 2 -> 2 group normalized with a residual connection, and 2 -> 1 trained by edge popup *)
Definition ex_lcfg1 : lcfg := Lcfg 2 2 NO_DROPOUT 7 DROPOUT 1056964608 0 4 LSTM_RESIDUAL GROUP_NORMALIZATION 2 GRADIENT_DESCENT FULLY_FEED_FORWARD.
Definition ex_lcfg2 (train ff : Z) : lcfg := Lcfg 2 1 NO_DROPOUT 0 NO_DROPOUT 0 1 4 0 NO_NORMALIZATION 0 train ff.
Definition ex_l1 : lstm := ltac:(built (recurrent_lstm (rd_w ex_r) ex_lcfg1)).
Definition ex_l2 : lstm := ltac:(built (recurrent_lstm (rd_w ex_r) (ex_lcfg2 EDGE_POPUP EDGE_POPUP))).
Definition ex_mixed : lstm := ltac:(built (recurrent_lstm (rd_w ex_r) (ex_lcfg2 GRADIENT_DESCENT EDGE_POPUP))).
Lemma lstm_like_refl l : lstm_like l l.
Proof.
  repeat split; [by apply Forall2_same| |].
  - apply Forall2_same. intros [e|]; repeat constructor.
  - destruct (l_bns l) as [b|]; constructor. by apply Forall2_same.
Qed.
Lemma ex_lstm_reach : reach_lstm ex_l1 /\ reach_lstm ex_l2 /\ made_lstm ex_mixed.
Proof.
  split; [|split]; [split; [|done]; exists (rd_w ex_r), ex_lcfg1, ex_l1|split; [|done]; exists (rd_w ex_r), (ex_lcfg2 EDGE_POPUP EDGE_POPUP), ex_l2
    |exists (rd_w ex_r), (ex_lcfg2 GRADIENT_DESCENT EDGE_POPUP), ex_mixed]; (split; [by vm_compute|apply lstm_like_refl]).
Qed.
Definition ex_rmodel : rmodel := ltac:(built (recurrent_network 2 [ex_l1; ex_l2] 4 3)).
Lemma ex_rmodel_reach : reach_rmodel ex_rmodel.
Proof.
  exists 2, [ex_l1; ex_l2], 4, 3, ex_rmodel. destruct ex_lstm_reach as (? & ? & _). split; [by repeat apply list.Forall_cons_2|]. split; [exact eq_refl|].
  repeat split. apply Forall2_same, lstm_like_refl.
Qed.
(** networks of one fully connected layer, for the compound models *)
Definition ex_dense (input output : Z) : option model :=
  f ← fully_connected (rd_w ex_r) (rd_nz ex_r) (Fcfg input output 0 NO_DROPOUT NO_ACTIVATION f0 0 NO_NORMALIZATION GRADIENT_DESCENT FULLY_FEED_FORWARD STANDARD);
  network 1 [] [] [f].
Lemma ex_dense_reach input output m : ex_dense input output = Some m -> reach_model m.
Proof.
  unfold ex_dense. intros (f & Hf & Hn)%bind_Some. exists 1, [], [], [f], m. repeat (split; [done|]).
  split; [by apply list.Forall_singleton; eapply made_fcl|]. split; [done|]. split; [done|apply model_like_refl].
Qed.
Definition ex_d42 : model := ltac:(built (ex_dense 4 2)). Definition ex_d44 : model := ltac:(built (ex_dense 4 4)).
Definition ex_d24 : model := ltac:(built (ex_dense 2 4)). Definition ex_d22 : model := ltac:(built (ex_dense 2 2)).
Lemma ex_dense_reaches : reach_model ex_d42 /\ reach_model ex_d44 /\ reach_model ex_d24 /\ reach_model ex_d22.
Proof. split; [|split; [|split]]; [apply (ex_dense_reach 4 2)|apply (ex_dense_reach 4 4)|apply (ex_dense_reach 2 4)|apply (ex_dense_reach 2 2)]; by vm_compute. Qed.
(** an encoder with two heads and both normalizations; a decoder around another one *)
Definition ex_head : ahead := Head ex_d42 ex_d42 ex_d42.
Definition ex_norm : l2norm := L2 4 FREEZE_TRAINING 77.
Definition ex_encoder : encoder :=
  ltac:(built (transformer_encoder_layer [ex_head; ex_head] ex_d44 ex_d44 (Some [ex_norm; ex_norm]) 4 2 1 SCALED_L2_NORMALIZATION 0 SCALED_L2_NORMALIZATION 1 2 2)).
Definition ex_decoder : decoder :=
  ltac:(built (transformer_decoder_layer 4 2 2 1 1 SCALED_L2_NORMALIZATION 0 0 1 SCALED_L2_NORMALIZATION 1 2 4 ex_d44 ex_d44 ex_d44 [ex_head; ex_head; ex_head]
                 (Some [ex_norm; ex_norm]) 2 2 2 2)).
Lemma ex_parts : reach_head ex_head /\ reach_l2 ex_norm.
Proof. destruct ex_dense_reaches as (? & ? & ? & ?). split; [by repeat split|]. by exists (fun _ => 0), 4, (L2 4 GRADIENT_DESCENT 0). Qed.
Lemma head_like_refl h : head_like h h. Proof. repeat apply conj; apply model_like_refl. Qed.
Lemma encoder_like_refl t : encoder_like t t.
Proof. repeat (split; [done|]). split; [apply Forall2_same, head_like_refl|]. repeat (split; [done|]). split; [by apply Forall2_same|]. split; apply model_like_refl. Qed.
Lemma ex_encoder_reach : reach_encoder ex_encoder.
Proof.
  destruct ex_dense_reaches as (? & ? & ? & ?), ex_parts as (? & ?). split.
  - split; [by repeat apply list.Forall_cons_2|]. split; [by repeat apply list.Forall_cons_2|]. split; done.
  - do 14 eexists. split; [exact (eq_refl (x := transformer_encoder_layer [ex_head; ex_head] ex_d44 ex_d44 (Some [ex_norm; ex_norm]) 4 2 1
      SCALED_L2_NORMALIZATION 0 SCALED_L2_NORMALIZATION 1 2 2))|apply encoder_like_refl].
Qed.
Lemma ex_decoder_reach : reach_decoder ex_decoder.
Proof.
  destruct ex_dense_reaches as (? & ? & ? & ?), ex_parts as (? & ?). split; [by repeat apply list.Forall_cons_2|].
  split; [by repeat apply list.Forall_cons_2|]. split; [done|]. split.
  - split; [by repeat apply list.Forall_cons_2|]. split; [by repeat apply list.Forall_cons_2|]. split; done.
  - do 23 eexists. split.
    { exact (eq_refl (x := transformer_decoder_layer 4 2 2 1 1 SCALED_L2_NORMALIZATION 0 0 1 SCALED_L2_NORMALIZATION 1 2 4 ex_d44 ex_d44 ex_d44
        [ex_head; ex_head; ex_head] (Some [ex_norm; ex_norm]) 2 2 2 2)). }
    repeat (split; [done|]). split; [apply Forall2_same, head_like_refl|]. repeat (split; [done|]). split; [by apply Forall2_same|].
    split; [apply model_like_refl|apply encoder_like_refl].
Qed.
(** the connection of an encoder to a decoder: 1 is saved, part of an address is loaded *)
Example ex_transformer r root : round_trip_to (save_transf (fun _ => 1431655765)) (load_transf r root) (Transformer [ex_encoder] [ex_decoder] (Some [[1]]))
  (Transformer [encoder_with_k f1 ex_encoder] [decoder_with_k f1 ex_decoder] (Some [[1431655765]])).
Proof. apply (proj1 (C41_transformers_refuted r root (fun _ => 1431655765))); [apply ex_encoder_reach|apply ex_decoder_reach]. Qed.
(** two actions, two atoms *)
Definition ex_dqn : dqn := ltac:(built (dqn_init 4 2 2 f0 f1 ex_d44 ex_d42 ex_d42 ex_d22 ex_d24)).
Lemma ex_dqn_reach : reach_dqn ex_dqn.
Proof.
  destruct ex_dense_reaches as (? & ? & ? & ?). repeat (split; [done|]). do 11 eexists. split.
  { exact (eq_refl (x := dqn_init 4 2 2 f0 f1 ex_d44 ex_d42 ex_d42 ex_d22 ex_d24)). }
  repeat (split; [done|]). repeat apply conj; apply model_like_refl.
Qed.
Definition ex_vae : vae := Vae 2 ex_d44 ex_d24.
Lemma ex_vae_reach : reach_vae ex_vae /\ v_latent ex_vae = first_size (v_dec ex_vae).
Proof.
  destruct ex_dense_reaches as (? & ? & ? & ?). split; [|done]. repeat (split; [done|]). exists ex_d44, ex_d24.
  split; [by vm_compute|]. split; apply model_like_refl.
Qed.
Definition ex_ez : ez := Ez 3 4 (Some (ex_d44, ex_d44)) (replicate 7 ex_d44) ex_rmodel.
Lemma ex_ez_reach : reach_ez ex_ez.
Proof.
  destruct ex_dense_reaches as (? & ? & ? & ?). split; [by repeat apply list.Forall_cons_2|]. split; [apply ex_rmodel_reach|].
  split; [|by vm_compute]. intros a b [= <- <-]. done.
Qed.
Example ex_ez_trip : round_trip_to save_ez (load_ez ex_r 1) ex_ez (ez_with_k f1 1 ex_ez).
Proof. apply C41_efficientzero_partial; [apply ex_ez_reach|done]. Qed.
Example ex_vector : ~ round_trip save_vector load_vector (Vec 3 3 3 0 0 0 1 0 (Some [4; 5; 6])).
Proof. by apply (C41_vectors_refuted _ [4; 5; 6]). Qed.

Print Assumptions C41_models.
Print Assumptions C41_recurrent_networks.
Print Assumptions C41_decoders_partial.
Print Assumptions C41_transformers_refuted.
Print Assumptions C41_efficientzero_partial.
Print Assumptions C41_autoencoders_partial.
Print Assumptions C41_unsorted_residual_refuted.
