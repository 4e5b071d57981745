(** The backward pass of the C code computes the reverse-mode errors. *)
From Coquelicot Require Import Coquelicot.
From Verif Require Import NumLib NumLib2 Grad Deriv Act_Model Act_Props Loss_Model Softmax_Model Softmax_Props FC_Model FC_Spec FC_Proofs FC_Props Attn_Model Vec_Model Vec_Proofs Vec_Props Mlp_Model Mlp_Spec Mlp_Proofs Mlp_Bp.
Open Scope nat_scope.

Lemma softmax_error mask n z s e out : length z = n -> length s = n -> length e = n -> length mask = n -> (forall i, mask !! i <> Some 0%Z) -> out = replicate n 0%R ->
  (forall i, i < n -> el s i = softmax_of everything n z i) ->
  exists o, derivative_softmax_array mask out s e n = Some o /\ length o = n /\ forall i, i < n -> el o i = back SOFTMAX n z (el e) i.
Proof.
  intros Hz Hs He Hm Hmask -> Hsm.
  assert (Ha : forall i, active mask i = true) by (intros i; unfold active; by rewrite bool_decide_false).
  assert (Hao : forall f, active_sum (active mask) n f = sumn n f) by (intros f; unfold active_sum; apply sumn_ext; intros; by rewrite Ha).
  assert (Hso : forall v i, softmax_of (active mask) n v i = softmax_of everything n v i) by (intros; unfold softmax_of; by rewrite Hao).
  destruct (C21_masked_derivative_is_the_gradient z s e (replicate n 0%R) mask n) as (o & E & Lo & H & _); [rewrite ?replicate_length; lia..|intros; by rewrite Hso, Hsm|].
  rewrite replicate_length in Lo. exists o. split; [done|]. split; [done|]. intros i Hi. destruct (H i Hi) as (d & Ed & Hd). rewrite Ed, el_replicate, Rplus_0_l.
  rewrite (dlim_unique _ _ _ _ Hd (softmax_partial (active mask) n z e i Hi ltac:(lia) (Ha i))). unfold back. pick. rewrite Hso, Hao. f_equal. f_equal. apply sumn_ext. intros. by rewrite Hso.
Qed.
Lemma times_run d a e t t3 n : length a = n -> length e = n -> length t = n -> length t3 = n ->
  exists t' t3', times d a e t t3 n = Some (t', t3') /\ length t' = n /\ length t3' = n /\ forall i, i < n -> el t' i = (el e i * d (el a i))%R.
Proof.
  intros Ha He Ht Ht3. unfold times. destruct (map_filled d a t3 n) as (t3' & E3 & L3 & H3 & _); [lia..|]. rewrite E3. cbn [mbind option_bind].
  destruct (map2_filled (fun a b => Some (a * b)%R) (fun a b => (a * b)%R) t3' e t n) as (t' & E & L & H & _); [lia..|done|]. unfold dot1D. rewrite E. cbn [mbind option_bind].
  exists t', t3'. split; [done|]. split; [lia|]. split; [lia|]. intros i Hi. rewrite H, H3 by done. lra.
Qed.
Lemma times_temp_run d a t t3 n : length a = n -> length t = n -> length t3 = n ->
  exists t' t3', times_temp d a t t3 n = Some (t', t3') /\ length t' = n /\ length t3' = n /\ forall i, i < n -> el t' i = (el t i * d (el a i))%R.
Proof.
  intros Ha Ht Ht3. unfold times_temp. destruct (map_filled d a t3 n) as (t3' & E3 & L3 & H3 & _); [lia..|]. rewrite E3. cbn [mbind option_bind].
  destruct (loop_filled n (fun i t => x ← rd t3' i; y ← rd t i; wr t i (x * y)%R) (fun i => el t i * d (el a i))%R t) as (t' & E & L & H & _); [lia| |].
  { intros i l Hi Hl El. rewrite (rd_el t3'), (rd_el l) by lia. cbn [mbind option_bind]. f_equal. rewrite El, H3 by done. lra. }
  rewrite E. cbn [mbind option_bind]. exists t', t3'. split; [done|]. split; [lia|]. split; [lia|]. intros i Hi. by apply H.
Qed.

Lemma sigmoid_dact n z i : derivative_sigmoid_given_the_sigmoid (activations SIGMOID n z i) = dact SIGMOID (el z i).
Proof. unfold activations, activation, dact. pick. rewrite <- C22_sigmoid_is_logistic. done. Qed.
Lemma dact_codes z : derivative_relu z = dact RELU z /\ derivative_elu z 1 = dact ELU z /\ derivative_tanhh z = dact TANH z /\ derivative_leaky_relu z = dact LEAKY_RELU z.
Proof. unfold dact. by pick. Qed.
(** the output error given to the dense kernel *)
Lemma error_run nb alias draw x f f' e : ready f -> dflag f <> DROPOUT_TEST -> ran1 draw x f f' -> length e = fo f ->
  exists oe t t3, (if decide (dflag f' <> NO_DROPOUT) then error_dropout nb f' e else error_plain nb alias f' e) = Some (oe, t, t3) /\
    length oe = fo f /\ (length t = fo f /\ length t3 = fo f) /\ forall i, i < fo f -> el oe i = err_out (layer_of draw f) x e i.
Proof.
  intros (Hsh & Zp & Zt & Zt3 & Ze & Zm) Ht (b & m & ed & -> & Hb & Hm & Hd) He. destruct Hsh as (L1 & L2 & L3 & L4 & L5 & L6 & L7 & L8 & L9 & L10 & L11 & L12 & Ha & Hdf & Hn & Hmo).
  set (z := affine (layer_of draw f) x) in *. assert (Lz : length z = fo f) by (unfold z; by rewrite length_affine).
  cbn [set_ff dflag]. destruct (decide (dflag f <> NO_DROPOUT)) as [H0|H0].
  - assert (dflag f = DROPOUT) as H1 by (unfold NO_DROPOUT, DROPOUT, DROPOUT_TEST in *; lia). destruct (Hm H0) as [Lm Le]. specialize (Hd H1).
    unfold error_dropout. cbn [set_ff fo mask temp temp3 act post pre activ].
    destruct (map2_filled (fun a b => Some (a * b)%R) (fun a b => (a * b)%R) e m (temp f) (fo f)) as (t & Et & Lt & Het & _); [lia..|done|]. unfold dot1D. rewrite Et. cbn [mbind option_bind].
    unfold norm_backward. cbn [set_ff nrm]. rewrite Hn. rewrite (decide_False (P := _ \/ _)) by (intros [? | ?]; discriminate). cbn [mbind option_bind fst snd].
    assert (Hk : forall i, i < fo f -> el t i = (keep_of draw f i * el e i)%R) by (intros i Hi; rewrite Het by done; destruct (Hd i Hi) as [-> _]; lra).
    assert (Hgo : forall d a, length a = fo f -> act f <> SOFTMAX -> (forall i, i < fo f -> d (el a i) = dact (act f) (el z i)) ->
      exists oe t0 t3, (r ← times_temp d a t (temp3 f) (fo f); Some (r.1, r.1, r.2)) = Some (oe, t0, t3) /\
      length oe = fo f /\ (length t0 = fo f /\ length t3 = fo f) /\ forall i, i < fo f -> el oe i = err_out (layer_of draw f) x e i).
    { intros d a La Hns Hda. destruct (times_temp_run d a t (temp3 f) (fo f)) as (t' & t3' & E & Lt' & Lt3 & H); [lia..|]. rewrite E. cbn [mbind option_bind fst snd]. eexists _, _, _. split; [done|]. split; [done|]. split; [done|].
      intros i Hi. rewrite H, Hda, Hk by done. unfold err_out, back. cbn [layer_of d_act d_out d_keep]. rewrite decide_False by done. done. }
    destruct (decide (act f = SIGMOID)) as [E|N1].
    { apply Hgo; [by apply Hb; rewrite E|by rewrite E|]. intros i Hi. destruct (Hb ltac:(by rewrite E)) as [_ Hb']. rewrite Hb' by done. rewrite E. apply sigmoid_dact. }
    destruct (decide (act f = RELU)) as [E|N2]; [apply Hgo; [done|by rewrite E|]; intros i Hi; rewrite E; apply dact_codes|].
    destruct (decide (act f = ELU)) as [E|N3]; [apply Hgo; [done|by rewrite E|]; intros i Hi; rewrite E; apply dact_codes|].
    destruct (decide (act f = SOFTMAX)) as [E|N4].
    { destruct (Hb ltac:(by rewrite E)) as [Lb Hb'].
      destruct (softmax_error (activ f) (fo f) z b t (temp3 f)) as (o & Eo & Lo & Ho); [done..|lia|done|done|done| |].
      { intros i Hi. rewrite Hb' by done. unfold activations. by rewrite decide_True. }
      rewrite Eo. cbn [mbind option_bind]. destruct (copy_run o t 0 (fo f)) as (c & Ec & Lc & Hc & _); [cbn [Nat.add]; apply Nat.eq_le_incl; congruence..|]. rewrite Ec. cbn [mbind option_bind fst snd].
      eexists _, _, _. split; [done|]. split; [congruence|]. split; [split; congruence|]. intros i Hi. pose proof (Hc i Hi) as Hci; cbn [Nat.add] in Hci; rewrite Hci, Ho by done. unfold err_out. cbn [layer_of d_act d_out d_keep]. rewrite E. unfold back. rewrite !(decide_True (P := SOFTMAX = SOFTMAX)) by done.
      rewrite Hk by done. f_equal. f_equal. apply sumn_ext. intros. by rewrite Hk. }
    destruct (decide (act f = TANH)) as [E|N5]; [apply Hgo; [done|by rewrite E|]; intros i Hi; rewrite E; apply dact_codes|].
    destruct (decide (act f = LEAKY_RELU)) as [E|N6]; [apply Hgo; [done|by rewrite E|]; intros i Hi; rewrite E; apply dact_codes|].
    cbn [mbind option_bind fst snd]. eexists _, _, _. split; [done|]. split; [congruence|]. split; [split; congruence|]. intros i Hi. rewrite Hk by done. unfold err_out, back, dact. cbn [layer_of d_act d_out d_keep]. rewrite !decide_False by done. lra.
  - assert (dflag f = NO_DROPOUT) as H1 by (unfold NO_DROPOUT in *; lia). unfold error_plain. cbn [set_ff fo mask temp temp3 act post pre activ].
    unfold norm_backward. cbn [set_ff nrm]. rewrite Hn. rewrite (decide_False (P := _ \/ _)) by (intros [? | ?]; discriminate). cbn [mbind option_bind fst snd].
    assert (Hk : forall i, keep_of draw f i = 1%R) by (intros i; unfold keep_of; by rewrite !decide_False by (rewrite H1; done)).
    assert (Hgo : forall d a, length a = fo f -> act f <> SOFTMAX -> (forall i, i < fo f -> d (el a i) = dact (act f) (el z i)) ->
      exists oe t0 t3, (r ← times d a e (temp f) (temp3 f) (fo f); Some (r.1, r.1, r.2)) = Some (oe, t0, t3) /\
      length oe = fo f /\ (length t0 = fo f /\ length t3 = fo f) /\ forall i, i < fo f -> el oe i = err_out (layer_of draw f) x e i).
    { intros d a La Hns Hda. destruct (times_run d a e (temp f) (temp3 f) (fo f)) as (t' & t3' & E & Lt' & Lt3 & H); [lia..|]. rewrite E. cbn [mbind option_bind fst snd]. eexists _, _, _. split; [done|]. split; [done|]. split; [done|].
      intros i Hi. rewrite H, Hda by done. unfold err_out, back. cbn [layer_of d_act d_out d_keep]. rewrite decide_False by done. rewrite Hk. unfold z. lra. }
    destruct (decide (act f = SIGMOID)) as [E|N1].
    { apply Hgo; [by apply Hb; rewrite E|by rewrite E|]. intros i Hi. destruct (Hb ltac:(by rewrite E)) as [_ Hb']. rewrite Hb' by done. rewrite E. apply sigmoid_dact. }
    destruct (decide (act f = RELU)) as [E|N2]; [apply Hgo; [done|by rewrite E|]; intros i Hi; rewrite E; apply dact_codes|].
    destruct (decide (act f = ELU)) as [E|N3]; [apply Hgo; [done|by rewrite E|]; intros i Hi; rewrite E; apply dact_codes|].
    destruct (decide (act f = SOFTMAX)) as [E|N4].
    { destruct (Hb ltac:(by rewrite E)) as [Lb Hb'].
      destruct (softmax_error (activ f) (fo f) z b e (temp f)) as (o & Eo & Lo & Ho); [done..|lia|done|done|done| |].
      { intros i Hi. rewrite Hb' by done. unfold activations. by rewrite decide_True. }
      rewrite Eo. cbn [mbind option_bind fst snd]. eexists _, _, _. split; [done|]. split; [congruence|]. split; [split; congruence|]. intros i Hi. rewrite Ho by done. unfold err_out. cbn [layer_of d_act d_out d_keep]. rewrite E. unfold back. rewrite !(decide_True (P := SOFTMAX = SOFTMAX)) by done.
      rewrite Hk. rewrite Rmult_1_l. f_equal. f_equal. apply sumn_ext. intros. rewrite Hk, Rmult_1_l. reflexivity. }
    destruct (decide (act f = TANH)) as [E|N5]; [apply Hgo; [done|by rewrite E|]; intros i Hi; rewrite E; apply dact_codes|].
    destruct (decide (act f = LEAKY_RELU)) as [E|N6]; [apply Hgo; [done|by rewrite E|]; intros i Hi; rewrite E; apply dact_codes|].
    assert (Hlast : forall i, el e i = err_out (layer_of draw f) x e i) by (intros i; unfold err_out, back, dact; cbn [layer_of d_act d_out d_keep]; rewrite !decide_False by done; rewrite Hk; lra).
    destruct alias.
    + eexists _, _, _. split; [done|]. split; [congruence|]. split; [split; congruence|]. intros i Hi. apply Hlast.
    + destruct (copy_run e (temp f) 0 (fo f)) as (c & Ec & Lc & Hc & _); [cbn [Nat.add]; apply Nat.eq_le_incl; congruence..|]. rewrite Ec. cbn [mbind option_bind fst snd]. eexists _, _, _. split; [done|]. split; [congruence|]. split; [split; congruence|]. intros i Hi. pose proof (Hc i Hi) as Hci; cbn [Nat.add] in Hci; rewrite Hci. apply Hlast.
Qed.

(** what a backward step leaves in the layer *)
Definition grown1 (l : dl) (x e : list R) (f f'' : fcl) : Prop := exists a b c d ed w bb t t3 e2,
  f'' = set_bp (set_ff f a b c d ed) w bb t t3 e2 /\
  w = imap (fun k y => (y + err_out l x e (k / fi f) * el x (k mod fi f))%R) (dw f) /\
  bb = (if decide (mode f = FREEZE_BIASES) then db f else imap (fun j y => (y + err_out l x e j)%R) (db f)).
Lemma imap_ext_len {A B} (g h : nat -> A -> B) l : (forall i y, i < length l -> g i y = h i y) -> imap g l = imap h l.
Proof. intros H. apply imap_ext. intros i y Hi. apply H. by eapply lookup_lt_Some. Qed.

Lemma backward_run nb alias draw x f f' e : ready f -> dflag f <> DROPOUT_TEST -> ran1 draw x f f' -> length x = fi f -> length e = fo f ->
  exists f'', backward_layer nb alias x f' e = Some (err_in (layer_of draw f) x e, f'') /\ grown1 (layer_of draw f) x e f f''.
Proof.
  intros Hr Ht Hran Lx He. destruct (error_run nb alias draw x f f' e Hr Ht Hran He) as (oe & t & t3 & E & Lo & _ & Ho). unfold backward_layer. rewrite E. cbn [mbind option_bind fst snd].
  destruct Hran as (b & m & ed & -> & _). destruct Hr as (Hsh & Zp & Zt & Zt3 & Ze & Zm). destruct Hsh as (L1 & L2 & L3 & L4 & L5 & L6 & L7 & L8 & L9 & L10 & L11 & L12 & Ha & Hdf & Hn & Hmo).
  cbn [set_ff mode weights dw err2 db fi fo]. rewrite Ze.
  assert (Hin : imap (fun i x => x + sumn (fo f) (fun j => el oe j * el (weights f) (j * fi f + i)))%R (replicate (fi f) 0%R) = err_in (layer_of draw f) x e).
  { unfold err_in. cbn [layer_of d_out d_W d_in]. apply list_map_seq; [by rewrite imap_length, replicate_length|]. intros i Hi. rewrite el_imap by (by rewrite replicate_length). rewrite el_replicate, Rplus_0_l. apply sumn_ext. intros j Hj. by rewrite Ho. }
  assert (Hw : imap (fun k x0 => x0 + el oe (k / fi f) * el x (k mod fi f))%R (dw f) = imap (fun k y => (y + err_out (layer_of draw f) x e (k / fi f) * el x (k mod fi f))%R) (dw f)).
  { apply imap_ext_len. intros k y Hk. rewrite Ho; [done|]. rewrite L3 in Hk. by destruct (flat_split (fo f) (fi f) k Hk) as (? & _). }
  assert (Hb : imap (fun j y => y + el oe j)%R (db f) = imap (fun j y => (y + err_out (layer_of draw f) x e j)%R) (db f)).
  { apply imap_ext_len. intros k y Hk. rewrite Ho by lia. done. }
  destruct (decide (mode f = GRADIENT_DESCENT \/ mode f = FREEZE_TRAINING)) as [Hm|Hm].
  - rewrite (fc_bp_run (fi f) (fo f) x (weights f) oe) by (rewrite ?replicate_length; try done; intros ? [= <-]; done). cbn [mbind option_bind fst snd fmap option_fmap option_map].
    rewrite andb_false_r. rewrite Hin, Hw, Hb. eexists. split; [done|]. eexists _, _, _, _, _, _, _, _, _, _. split; [done|]. split; [done|]. rewrite decide_False; [done|]. intros E0. destruct Hm as [Hm|Hm]; rewrite Hm in E0; discriminate.
  - destruct Hmo as [?|[?|Hmo]]; [tauto..|]. rewrite decide_True by done.
    rewrite (fc_bp_run (fi f) (fo f) x (weights f) oe) by (rewrite ?replicate_length; try done). cbn [mbind option_bind fst snd fmap option_fmap option_map].
    rewrite andb_false_l. rewrite Hin, Hw. eexists. split; [done|]. eexists _, _, _, _, _, _, _, _, _, _. split; [done|]. split; [done|]. by rewrite decide_True.
Qed.

(** all layers *)
Fixpoint grown (draw : nat -> nat -> R) (k : nat) (x e : list R) (fs fs'' : list fcl) : Prop :=
  match fs, fs'' with
  | [], [] => True
  | f :: fs, f'' :: fs'' =>
      let y := apply_layer (layer_of (draw k) f) x in
      grown1 (layer_of (draw k) f) x (err (layers_of draw (S k) fs) y e) f f'' /\ grown draw (S k) y e fs fs''
  | _, _ => False
  end.
Definition training (f : fcl) : Prop := dflag f <> DROPOUT_TEST.
Definition odim_fcl (n : nat) (fs : list fcl) : nat := match list.last fs with Some f => fo f | None => n end.
Lemma odim_cons n f fs : odim_fcl n (f :: fs) = odim_fcl (fo f) fs.
Proof.
  unfold odim_fcl. destruct fs as [|g fs]; [done|]. change (list.last (f :: g :: fs)) with (list.last (g :: fs)).
  destruct (list.last (g :: fs)) eqn:E; [done|]. by apply last_None in E.
Qed.
Lemma odim_layers draw fs : forall n k, odim n (layers_of draw k fs) = odim_fcl n fs.
Proof. induction fs as [|f fs IH]; intros n k; [done|]. cbn [layers_of odim]. rewrite IH. by rewrite odim_cons. Qed.
Lemma length_err draw fs : forall k n x e, length e = odim_fcl n fs -> chained n fs -> length (err (layers_of draw k fs) x e) = n.
Proof.
  destruct fs as [|f fs]; intros k n x e He Hc; [done|]. cbn [layers_of err]. unfold err_in. rewrite map_length, seq_length. by destruct Hc as [? _].
Qed.
Lemma bp_rest_run nb draw fs : forall k x prev prev' fs' e, shaped prev -> training prev -> ran1 (draw k) x prev prev' ->
  ran draw (S k) (apply_layer (layer_of (draw k) prev) x) fs fs' -> Forall ready fs -> Forall training fs -> chained (fo prev) fs -> length e = odim_fcl (fo prev) fs ->
  exists fs'', bp_rest nb prev' fs' e = Some (err (layers_of draw (S k) fs) (apply_layer (layer_of (draw k) prev) x) e, fs'') /\
    grown draw (S k) (apply_layer (layer_of (draw k) prev) x) e fs fs''.
Proof.
  induction fs as [|f fs IH]; intros k x prev prev' fs' e Hs Ht Hp Hr Hrd Htr Hc He.
  - destruct fs'; [|done]. by exists [].
  - destruct fs' as [|f' fs']; [done|]. cbn [ran] in Hr. destruct Hr as [Hf Hr]. apply list.Forall_cons in Hrd as [Hrf Hrd]. apply list.Forall_cons in Htr as [Htf Htr]. destruct Hc as (Hi & Hsm & Hc).
    rewrite odim_cons in He. destruct (IH (S k) (apply_layer (layer_of (draw k) prev) x) f f' fs' e) as (fs'' & E & Hg); [apply Hrf|done..|].
    cbn [bp_rest]. rewrite E. cbn [mbind option_bind fst snd]. unfold bp_fcl_fcl. rewrite (taken_run (draw k) x prev prev') by done.
    destruct (backward_run nb true (draw (S k)) (apply_layer (layer_of (draw k) prev) x) f f' (err (layers_of draw (S (S k)) fs) (apply_layer (layer_of (draw (S k)) f) (apply_layer (layer_of (draw k) prev) x)) e)) as (f'' & E' & Hg'); [done..|by rewrite length_apply|by apply length_err|].
    rewrite E'. cbn [mbind option_bind fst snd]. eexists. split; [done|]. split; done.
Qed.
Lemma model_bp_run nb draw x fs fs' e : Forall ready fs -> Forall training fs -> chained (length x) fs -> fs <> [] -> length e = output_dimension fs ->
  ran draw 0 x fs fs' -> exists fs'', model_bp nb x fs' e = Some (err (layers_of draw 0 fs) x e, fs'') /\ grown draw 0 x e fs fs''.
Proof.
  destruct fs as [|f fs]; [done|]. intros Hrd Htr Hc _ He Hr. destruct fs' as [|f' fs']; [done|].
  assert (Hod : output_dimension (f' :: fs') = output_dimension (f :: fs)).
  { eapply ran_last; [done|eapply list.Forall_impl; [exact Hrd|]; by intros ? [? _]| |done]. intros g Hg. eapply (proj1 (list.Forall_forall _ _) Htr). by apply last_Some_elem_of. }
  unfold model_bp. rewrite Hod. rewrite decide_True by done.
  cbn [ran] in Hr. destruct Hr as [Hf Hr]. apply list.Forall_cons in Hrd as [Hrf Hrd]. apply list.Forall_cons in Htr as [Htf Htr]. destruct Hc as (Hi & Hsm & Hc).
  assert (He' : length e = odim_fcl (fo f) fs) by (rewrite <- (odim_cons 0); exact He).
  destruct (bp_rest_run nb draw fs 0 x f f' fs' e) as (fs'' & E & Hg); [apply Hrf|done..|]. rewrite E. cbn [mbind option_bind fst snd].
  unfold bp_cl_fcl. destruct (backward_run nb false (draw 0) x f f' (err (layers_of draw 1 fs) (apply_layer (layer_of (draw 0) f) x) e)) as (f'' & E' & Hg'); [done..|by apply length_err|].
  rewrite E'. cbn [mbind option_bind fst snd]. eexists. split; [done|]. split; done.
Qed.
