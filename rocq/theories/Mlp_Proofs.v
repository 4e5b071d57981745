(** Proofs for networks of dense layers. *)
From Coquelicot Require Import Coquelicot.
From Verif Require Import NumLib NumLib2 Grad Deriv Act_Model Act_Props Loss_Model Loss_Props Softmax_Model Softmax_Props FC_Model FC_Spec FC_Proofs FC_Props Attn_Model Vec_Model Vec_Proofs Vec_Props Mlp_Model Mlp_Spec.
Open Scope nat_scope.

Lemma list_map_seq (l : list R) n g : length l = n -> (forall i, i < n -> el l i = g i) -> l = map g (seq 0 n).
Proof.
  intros Hl H. apply list_eq. intros i. destruct (decide (i < n)) as [Hi|Hi].
  - rewrite lookup_el by lia. rewrite H by done. change (map g (seq 0 n)) with (g <$> seq 0 n). rewrite list_lookup_fmap. rewrite lookup_seq_lt by done. done.
  - rewrite !lookup_ge_None_2; [done| |lia]. rewrite map_length, seq_length. lia.
Qed.
Lemma el_rep n (v : R) i : i < n -> el (replicate n v) i = v.
Proof. intros. apply el_lookup. by apply lookup_replicate_2. Qed.
Lemma fill_filled v n l : n <= length l -> exists o, fill v n l = Some o /\ filled n (fun _ => v) l o.
Proof. intros. apply loop_filled; [done|]. done. Qed.
Lemma fill_run v n l : length l = n -> fill v n l = Some (replicate n v).
Proof.
  intros Hl. destruct (fill_filled v n l) as (o & E & Ho & H & _); [lia|]. rewrite E. f_equal.
  rewrite (list_map_seq o n (fun _ => v)) by (done || lia). symmetry. apply list_map_seq; [apply replicate_length|]. intros i Hi. apply el_rep. done.
Qed.
Lemma length_affine l x : length (affine l x) = d_out l.
Proof. unfold affine, dense. by rewrite map_length, seq_length. Qed.
Lemma length_apply l x : length (apply_layer l x) = d_out l.
Proof. unfold apply_layer. by rewrite map_length, seq_length. Qed.
Lemma el_apply l x i : i < d_out l -> el (apply_layer l x) i = (d_keep l i * activations (d_act l) (d_out l) (affine l x) i)%R.
Proof. intros. unfold apply_layer. by rewrite el_map_seq by done. Qed.

(** C activation = specification *)
Lemma activate_run f z : act f <= 6 -> (act f <> NO_ACTIVATION -> length (post f) = fo f) -> length z = fo f ->
  exists b, activate f z = Some b /\ (act f <> NO_ACTIVATION -> length b = fo f /\ forall i, i < fo f -> el b i = activations (act f) (fo f) z i) /\
    (act f = NO_ACTIVATION -> b = post f).
Proof.
  intros Ha Hp Hz. unfold activate.
  assert (Hgo : forall g, act f <> NO_ACTIVATION -> act f <> SOFTMAX -> (forall x : R, g x = activation (act f) x) -> exists b, map_array g z (post f) (fo f) = Some b /\
    (act f <> NO_ACTIVATION -> length b = fo f /\ forall i, i < fo f -> el b i = activations (act f) (fo f) z i) /\ (act f = NO_ACTIVATION -> b = post f)).
  { intros g Hne Hns Hgh. destruct (map_filled g z (post f) (fo f)) as (b & E & Hl & H1 & _); [lia|by rewrite Hp|]. exists b. split; [done|]. split; [|done]. intros _. rewrite Hl, Hp by done. split; [done|].
    intros. unfold activations. rewrite decide_False by done. by rewrite H1, Hgh. }
  destruct (decide (act f = SIGMOID)) as [E|H1]; [apply Hgo; rewrite E; [done|done|]; intros; unfold activation; pick; apply C22_sigmoid_is_logistic|].
  destruct (decide (act f = RELU)) as [E|H2]; [apply Hgo; rewrite E; [done|done|]; intros; unfold activation; pick; apply relu_max|].
  destruct (decide (act f = ELU)) as [E|H3]; [apply Hgo; rewrite E; [done|done|]; intros; unfold activation; pick; apply elu_max|].
  destruct (decide (act f = SOFTMAX)) as [E|H4].
  { assert (Hne : act f <> NO_ACTIVATION) by (by rewrite E). specialize (Hp Hne). rewrite softmax_run by lia. eexists. split; [done|]. split; [|done]. intros _.
    rewrite imap_length, Hp by done. split; [done|]. intros i Hi. rewrite el_imap by lia. unfold activations. by rewrite !decide_True. }
  destruct (decide (act f = TANH)) as [E|H5]; [apply Hgo; rewrite E; [done|done|]; intros; unfold activation; pick; apply C22_tanhh_is_tanh|].
  destruct (decide (act f = LEAKY_RELU)) as [E|H6]; [apply Hgo; rewrite E; [done|done|]; intros; unfold activation; pick; apply leaky_max|].
  exists (post f). split; [done|]. split; [|done]. intros H7. unfold SIGMOID, RELU, ELU, SOFTMAX, TANH, LEAKY_RELU, NO_ACTIVATION in *. lia.
Qed.

(** state of a layer after a forward pass on x *)
Definition ran1 (draw : nat -> R) (x : list R) (f f' : fcl) : Prop := exists b m e,
  f' = set_ff f (affine (layer_of draw f) x) b (postn f) m e /\
  (act f <> NO_ACTIVATION -> length b = fo f /\ forall i, i < fo f -> el b i = activations (act f) (fo f) (affine (layer_of draw f) x) i) /\
  (dflag f <> NO_DROPOUT -> length m = fo f /\ length e = fo f) /\
  (dflag f = DROPOUT -> forall i, i < fo f -> el m i = keep_of draw f i /\ el e i = (keep_of draw f i * activations (act f) (fo f) (affine (layer_of draw f) x) i)%R).

Lemma ran1_fields draw x f f' : ran1 draw x f f' -> fi f' = fi f /\ fo f' = fo f /\ weights f' = weights f /\ biases f' = biases f /\
  dw f' = dw f /\ db f' = db f /\ act f' = act f /\ nrm f' = nrm f /\ dflag f' = dflag f /\ thr f' = thr f /\ mode f' = mode f /\
  pre f' = affine (layer_of draw f) x /\ temp f' = temp f /\ temp3 f' = temp3 f /\ err2 f' = err2 f /\ activ f' = activ f.
Proof. intros (b & m & e & -> & _). by repeat split. Qed.

Lemma forward_run nf draw x f : ready f -> length x = fi f -> exists f', forward_layer nf draw x f = Some f' /\ ran1 draw x f f'.
Proof.
  intros ((L1 & L2 & L3 & L4 & L5 & L6 & L7 & L8 & L9 & L10 & L11 & L12 & Ha & Hd & Hn & Hm) & Zp & Zt & Zt3 & Ze & Zm) Hx. unfold forward_layer.
  rewrite Zp. rewrite C24_forward_cleared by done. cbn [mbind option_bind].
  change (dense (fi f) (fo f) (weights f) (biases f) x) with (affine (layer_of draw f) x).
  destruct (activate_run f (affine (layer_of draw f) x)) as (b & Eb & Hb & Hb0); [done|done|by rewrite length_affine|]. rewrite Eb. cbn [mbind option_bind].
  rewrite Hn. rewrite (decide_False (P := _ \/ _)) by (intros [? | ?]; discriminate). cbn [mbind option_bind].
  destruct (decide (dflag f = NO_DROPOUT)) as [H0|H0].
  - eexists. split; [done|]. eexists _, _, _. split; [done|]. split; [done|]. split; [done|]. intros H1. rewrite H1 in H0. done.
  - destruct (L7 H0) as [Lm Le]. destruct (C47_mask draw (fo f) (mask f) (thr f)) as (m & Em & Lm' & Hm' & _); [lia|]. rewrite Em. cbn [mbind option_bind].
    destruct (decide (dflag f = DROPOUT)) as [H1|H1].
    + rewrite decide_False by done.
      set (src := if decide (act f = NO_ACTIVATION) then affine (layer_of draw f) x else b).
      assert (Hsrc : length src = fo f /\ forall i, i < fo f -> el src i = activations (act f) (fo f) (affine (layer_of draw f) x) i).
      { unfold src. destruct (decide (act f = NO_ACTIVATION)) as [E|E]; [|by apply Hb]. split; [by rewrite length_affine|]. intros i Hi. unfold activations, activation. rewrite E. by pick. }
      destruct Hsrc as [Ls Hs].
      destruct (map2_filled (fun m x => Some (m * x)%R) (fun m x => (m * x)%R) m src (dtemp f) (fo f)) as (e & Ee & Le' & He & _); [lia|lia|lia|done|].
      unfold get_dropout_array. rewrite Ee. cbn [mbind option_bind]. eexists. split; [done|]. eexists _, _, _. split; [done|]. split; [done|]. split; [intros; lia|].
      intros _ i Hi. rewrite He, Hs, Hm' by done. unfold keep_of. rewrite (decide_True (P := dflag f = DROPOUT)) by done.
      rewrite (Zm H0). rewrite el_rep by done. done.
    + eexists. split; [done|]. eexists _, _, _. split; [done|]. split; [done|]. split; [intros; lia|]. done.
Qed.

(** the array the next layer receives *)
Lemma taken_run draw x f f' : shaped f -> dflag f <> DROPOUT_TEST -> ran1 draw x f f' -> taken f' = apply_layer (layer_of draw f) x.
Proof.
  intros Hsh Ht (b & m & e & -> & Hb & Hm & He). destruct Hsh as (_ & _ & _ & _ & _ & _ & _ & _ & _ & _ & _ & _ & Ha & Hd & Hn & _).
  unfold taken. cbn [dflag set_ff nrm act dtemp postn post pre]. rewrite Hn. unfold apply_layer. cbn [d_keep layer_of d_act d_out].
  destruct (decide (dflag f <> NO_DROPOUT)) as [H1|H1].
  - assert (dflag f = DROPOUT) as H2 by (unfold NO_DROPOUT, DROPOUT, DROPOUT_TEST in *; lia). destruct (Hm H1) as [_ Le].
    apply list_map_seq; [done|]. intros i Hi. by apply He.
  - rewrite decide_False by (unfold NO_NORMALIZATION; lia). assert (Hk : forall i, keep_of draw f i = 1%R).
    { intros i. unfold keep_of. assert (dflag f = NO_DROPOUT) as -> by (unfold NO_DROPOUT in *; lia). by pick. }
    destruct (decide (act f <> NO_ACTIVATION)) as [H3|H3].
    + destruct (Hb H3) as [Lb Hb']. apply list_map_seq; [done|]. intros i Hi. rewrite Hb', Hk by done. lra.
    + assert (act f = NO_ACTIVATION) as E by (unfold NO_ACTIVATION in *; lia). apply list_map_seq; [by rewrite length_affine|]. intros i Hi. rewrite Hk. unfold activations, activation. rewrite E. pick. lra.
Qed.
Lemma hand_over_run draw x f f' f2 : shaped f -> (dflag f = DROPOUT_TEST -> act f <> NO_ACTIVATION) -> ran1 draw x f f' -> fi f2 = fo f ->
  exists f'', hand_over f' f2 = Some (f'', apply_layer (layer_of draw f) x) /\ ran1 draw x f f'' /\ (dflag f <> DROPOUT_TEST -> f'' = f').
Proof.
  intros Hsh Ht Hr Hf. destruct (decide (dflag f = DROPOUT_TEST)) as [H1|H1].
  - specialize (Ht H1). destruct Hr as (b & m & e & -> & Hb & Hm & He). destruct Hsh as (_ & _ & _ & _ & _ & _ & _ & _ & _ & _ & _ & _ & Ha & Hd & Hn & _).
    unfold hand_over. cbn [set_ff nrm dflag act post postn thr dtemp]. rewrite Hn, H1. rewrite decide_False by (intros [? | ?]; discriminate). rewrite (decide_False (P := act f = _)) by done.
    rewrite decide_False by done. rewrite decide_False by done. destruct (Hb Ht) as [Lb Hb']. destruct (Hm ltac:(by rewrite H1)) as [Lm Le].
    destruct (map_filled (fun x => x * thr f)%R b e (fi f2)) as (e' & Ee & Le' & He' & _); [lia|lia|]. unfold mul_value. rewrite Ee. cbn [mbind option_bind].
    eexists. split; [|split].
    + f_equal. f_equal. unfold apply_layer. cbn [d_keep layer_of d_act d_out]. apply list_map_seq; [lia|]. intros i Hi. rewrite He', Hb' by lia. unfold keep_of. rewrite H1. pick. lra.
    + exists b, m, e'. split; [done|]. split; [done|]. split; [intros; lia|]. rewrite H1. done.
    + done.
  - exists f'. split; [|done]. rewrite <- (taken_run draw x f f') by done. destruct Hr as (b & m & e & -> & Hb & Hm & He). destruct Hsh as (_ & _ & _ & _ & _ & _ & _ & _ & _ & _ & _ & _ & Ha & Hd & Hn & _).
    unfold hand_over, taken. cbn [set_ff nrm dflag act post postn pre thr dtemp]. rewrite Hn. rewrite (decide_False (P := _ \/ _)) by (intros [? | ?]; discriminate).
    rewrite (decide_False (P := NO_NORMALIZATION <> _)) by (unfold NO_NORMALIZATION; lia).
    destruct (decide (act f = NO_ACTIVATION)) as [E|E]; [rewrite (decide_False (P := act f <> _)) by tauto|rewrite (decide_True (P := act f <> _)) by done].
    all: destruct (decide (dflag f = NO_DROPOUT)) as [H2|H2]; [rewrite (decide_False (P := dflag f <> _)) by tauto; done|rewrite (decide_True (P := dflag f <> _)) by done].
    all: rewrite decide_True by (unfold NO_DROPOUT, DROPOUT, DROPOUT_TEST in *; lia); done.
Qed.

(** forward pass through the whole list *)
Fixpoint ran (draw : nat -> nat -> R) (k : nat) (x : list R) (fs fs' : list fcl) : Prop :=
  match fs, fs' with
  | [], [] => True
  | f :: fs, f' :: fs' => ran1 (draw k) x f f' /\ ran draw (S k) (apply_layer (layer_of (draw k) f) x) fs fs'
  | _, _ => False
  end.
Definition test_ok (f : fcl) : Prop := dflag f = DROPOUT_TEST -> act f <> NO_ACTIVATION.
Lemma ff_rest_run nf draw fs : forall k x prev prev', shaped prev -> test_ok prev -> ran1 (draw k) x prev prev' ->
  Forall ready fs -> Forall test_ok fs -> chained (fo prev) fs ->
  exists fs', ff_rest nf draw (S k) prev' fs = Some fs' /\ ran draw k x (prev :: fs) fs'.
Proof.
  induction fs as [|f fs IH]; intros k x prev prev' Hs Ht Hr Hrd Hts Hc.
  - exists [prev']. done.
  - cbn [ff_rest]. apply list.Forall_cons in Hrd as [Hrf Hrd]. apply list.Forall_cons in Hts as [Htf Hts]. destruct Hc as (Hi & Hsm & Hc).
    pose proof (ran1_fields _ _ _ _ Hr) as (_ & Hfo & _).
    destruct (hand_over_run (draw k) x prev prev' f Hs Ht Hr Hi) as (p & Ep & Hp & _).
    destruct (forward_run nf (draw (S k)) (apply_layer (layer_of (draw k) prev) x) f Hrf) as (f' & Ef & Hf'); [by rewrite length_apply|].
    rewrite decide_False by (intros [? ?]; tauto). unfold ff_fcl_fcl. rewrite decide_True by congruence. rewrite Ep. cbn [mbind option_bind snd fst]. rewrite Ef. cbn [mbind option_bind snd fst].
    destruct (IH (S k) (apply_layer (layer_of (draw k) prev) x) f f') as (fs' & Efs & Hfs); [apply Hrf|done..|]. rewrite Efs. cbn [mbind option_bind].
    eexists. split; [done|]. cbn [ran]. done.
Qed.
Lemma model_ff_run nf draw x fs : Forall ready fs -> Forall test_ok fs -> chained (length x) fs ->
  exists fs', model_ff nf draw x fs = Some fs' /\ ran draw 0 x fs fs'.
Proof.
  destruct fs as [|f fs]; intros Hr Ht Hc; [by exists []|]. cbn [model_ff]. apply list.Forall_cons in Hr as [Hrf Hr]. apply list.Forall_cons in Ht as [Htf Ht]. destruct Hc as (Hi & Hsm & Hc).
  rewrite decide_False by (intros [? ?]; tauto). unfold ff_cl_fcl. rewrite decide_True by done.
  destruct (forward_run nf (draw 0) x f Hrf) as (f' & Ef & Hf'); [done|]. rewrite Ef. cbn [mbind option_bind].
  apply ff_rest_run; try done. apply Hrf.
Qed.
Lemma ran_last draw fs : forall k x fs', ran draw k x fs fs' -> Forall shaped fs -> (forall f, list.last fs = Some f -> dflag f <> DROPOUT_TEST) -> fs <> [] ->
  model_output fs' = net (layers_of draw k fs) x /\ output_dimension fs' = output_dimension fs.
Proof.
  induction fs as [|f fs IH]; intros k x fs' Hr Hs Hl Hne; [done|]. destruct fs' as [|f' fs']; [done|]. cbn [ran] in Hr. destruct Hr as [H1 Hr]. apply list.Forall_cons in Hs as [Hsf Hs].
  destruct fs as [|f2 fs].
  - destruct fs'; [|done]. cbn [layers_of net]. split.
    + rewrite <- (taken_run (draw k) x f f' Hsf); [|by apply Hl|done]. unfold model_output, output_layer, taken. cbn [list.last].
      pose proof (ran1_fields _ _ _ _ H1) as (_ & _ & _ & _ & _ & _ & _ & Hn & _). destruct Hsf as (_ & _ & _ & _ & _ & _ & _ & _ & _ & _ & _ & _ & _ & _ & Hn0 & _).
      rewrite Hn, Hn0. rewrite (decide_False (P := _ \/ _)) by (intros [? | ?]; discriminate). rewrite (decide_False (P := NO_NORMALIZATION <> _)) by (unfold NO_NORMALIZATION; lia). done.
    + pose proof (ran1_fields _ _ _ _ H1) as (_ & Ho & _). done.
  - destruct fs' as [|f2' fs']; [done|]. destruct (IH (S k) _ _ Hr Hs) as [I1 I2]; [intros g Hg; by apply Hl|done|]. split; [exact I1|exact I2].
Qed.
