(** Gradients of a network of dense layers, layer by layer. *)
From Coquelicot Require Import Coquelicot.
From Verif Require Import NumLib NumLib2 Grad Deriv Act_Model Act_Props Loss_Model Loss_Props Softmax_Model Softmax_Props FC_Model FC_Spec FC_Proofs FC_Props Attn_Model Vec_Model Vec_Proofs Vec_Props Mlp_Model Mlp_Spec Mlp_Proofs Mlp_Bp Mlp_Bp2.
Open Scope R_scope.

(** the outputs are differentiable along the curve Y, and d is the derivative of <e, Y> *)
Definition slope (n : nat) (Y : R -> list R) (s0 : R) (e : list R) (d : R) : Prop :=
  exists y', cur s0 n Y y' /\ d = sumn n (fun i => el e i * y' i).
Lemma slope_inner n Y s0 e d : slope n Y s0 e d -> derivable_pt_lim (fun t => inner n e (Y t)) s0 d.
Proof. intros (y' & Hy & ->). unfold inner. apply (dlim_sumn n (fun i t => el e i * el (Y t) i)). intros i Hi. apply dlim_scal, (Hy i Hi). Qed.
Lemma slope_loss n Y s0 e d (L : nat -> R -> R) : slope n Y s0 e d -> (forall i, (i < n)%nat -> derivable_pt_lim (L i) (el (Y s0) i) (el e i)) ->
  derivable_pt_lim (fun t => sumn n (fun i => L i (el (Y t) i))) s0 d.
Proof.
  intros (y' & Hy & ->) HL. apply (dlim_sumn n (fun i t => L i (el (Y t) i))). intros i Hi.
  apply (dlim_comp (fun t => el (Y t) i) (L i)); [by apply Hy|by apply HL].
Qed.
Lemma slope_ext n Y Y' s0 e d : (forall t, Y t = Y' t) -> slope n Y s0 e d -> slope n Y' s0 e d.
Proof. intros E (y' & Hy & ->). exists y'. split; [|done]. intros i Hi. eapply dlim_ext; [|exact (Hy i Hi)]. intros t. cbv beta. by rewrite <- (E t). Qed.

Lemma dims_layers draw fs : forall n k, chained n fs -> dims n (layers_of draw k fs).
Proof. induction fs as [|f fs IH]; intros n k H; [done|]. destruct H as (H1 & _ & H2). cbn. split; [done|]. by apply IH. Qed.

Lemma el_delta n i j : (i < n)%nat -> (j < n)%nat -> el (<[i := 1]> (replicate n 0)) j = if decide (j = i) then 1 else 0.
Proof. intros. rewrite el_upd by (by rewrite replicate_length). by rewrite el_replicate. Qed.
(** a parameter of the first layer *)
Lemma first_layer_slope l ls x e (P : R -> dl) s0 z' : dims (d_out l) ls -> off_kinks (l :: ls) x ->
  (forall t, d_out (P t) = d_out l /\ d_act (P t) = d_act l /\ d_keep (P t) = d_keep l) -> affine (P s0) x = affine l x ->
  cur s0 (d_out l) (fun t => affine (P t) x) z' ->
  slope (odim (d_out l) ls) (fun t => net (P t :: ls) x) s0 e (sumn (d_out l) (fun i => err_out l x (err ls (apply_layer l x) e) i * z' i)).
Proof.
  intros Hd (Hk1 & Hk) HP Es Hz. destruct (shut_curve s0 l x _ _ Hz Es Hk1) as (y' & Hy & He).
  assert (E : forall t, apply_layer (P t) x = shut l (affine (P t) x)).
  { intros t. unfold apply_layer, shut. destruct (HP t) as (-> & -> & ->). done. }
  destruct (net_curve ls s0 (d_out l) (fun t => shut l (affine (P t) x)) y' Hd Hy) as (w' & Hw & Hw').
  { rewrite Es. exact Hk. }
  apply (slope_ext _ (fun t => net ls (shut l (affine (P t) x)))); [intros t; cbn [net]; by rewrite E|]. exists w'. split; [done|]. rewrite Hw', Es. rewrite <- He. done.
Qed.
Lemma W_slope l ls x e k : dims (d_out l) ls -> off_kinks (l :: ls) x -> (k < d_out l * d_in l)%nat -> length (d_W l) = (d_out l * d_in l)%nat ->
  slope (odim (d_out l) ls) (fun t => net (with_W l (<[k := t]> (d_W l)) :: ls) x) (el (d_W l) k) e
    (err_out l x (err ls (apply_layer l x) e) (k / d_in l) * el x (k mod d_in l)).
Proof.
  intros Hd Hk Hlt Hlen. destruct (flat_split (d_out l) (d_in l) k Hlt) as (H1 & H2 & H3).
  pose proof (first_layer_slope l ls x e (fun t => with_W l (<[k := t]> (d_W l))) (el (d_W l) k) (fun j => if decide (j = k / d_in l)%nat then el x (k mod d_in l) else 0) Hd Hk) as H.
  rewrite (sumn_ext (d_out l) _ (fun j => if decide (j = k / d_in l)%nat then err_out l x (err ls (apply_layer l x) e) j * el x (k mod d_in l) else 0)) in H.
  2:{ intros j _. cbn beta. destruct (decide _); lra. }
  rewrite (sumn_delta (d_out l) (k / d_in l) (fun j => err_out l x (err ls (apply_layer l x) e) j * el x (k mod d_in l))) in H by done.
  apply H; clear H.
  - done.
  - unfold affine, with_W. cbn. by rewrite upd_self.
  - intros j Hj. pose proof (dense_partial_W (d_in l) (d_out l) (d_W l) (d_b l) x (<[j := 1]> (replicate (d_out l) 0)) k Hlt Hlen) as H. unfold has_partial, inner in H.
    eapply dlim_ext; [|eapply dlim_val; [|exact H]].
    + intros t. cbn beta. unfold affine. cbn. rewrite (sumn_ext (d_out l) _ (fun i => if decide (i = j) then el (dense (d_in l) (d_out l) (<[k:=t]> (d_W l)) (d_b l) x) i else 0)).
      * rewrite (sumn_delta (d_out l) j (fun i => el (dense (d_in l) (d_out l) (<[k:=t]> (d_W l)) (d_b l) x) i)) by done. done.
      * intros i Hi. rewrite el_delta by done. destruct (decide (i = j)); lra.
    + rewrite el_delta by done. destruct (decide (k / d_in l = j)%nat), (decide (j = k / d_in l)%nat); try lia; lra.
Qed.
Lemma b_slope l ls x e k : dims (d_out l) ls -> off_kinks (l :: ls) x -> (k < d_out l)%nat -> length (d_b l) = d_out l ->
  slope (odim (d_out l) ls) (fun t => net (with_b l (<[k := t]> (d_b l)) :: ls) x) (el (d_b l) k) e (err_out l x (err ls (apply_layer l x) e) k).
Proof.
  intros Hd Hk Hlt Hlen.
  pose proof (first_layer_slope l ls x e (fun t => with_b l (<[k := t]> (d_b l))) (el (d_b l) k) (fun j => if decide (j = k) then 1 else 0) Hd Hk) as H.
  rewrite (sumn_ext (d_out l) _ (fun j => if decide (j = k) then err_out l x (err ls (apply_layer l x) e) j else 0)) in H.
  2:{ intros j _. cbn beta. destruct (decide _); lra. }
  rewrite (sumn_delta (d_out l) k (err_out l x (err ls (apply_layer l x) e))) in H by done.
  apply H; clear H.
  - done.
  - unfold affine, with_b. cbn. by rewrite upd_self.
  - intros j Hj. unfold affine. cbn. eapply dlim_ext; [intros t; by apply el_dense|]. eapply dlim_val; [|apply dlim_plus; [apply dlim_el; lia|apply dlim_const]]. lra.
Qed.

(** parameters that the backward pass leaves alone *)
Definition kept (f f'' : fcl) : Prop := fi f'' = fi f /\ fo f'' = fo f /\ weights f'' = weights f /\ biases f'' = biases f /\ act f'' = act f /\ nrm f'' = nrm f /\
  dflag f'' = dflag f /\ thr f'' = thr f /\ mode f'' = mode f /\ length (dw f'') = length (dw f) /\ length (db f'') = length (db f).

Lemma grown_gradient draw fs : forall k n x e fs'', grown draw k x e fs fs'' -> Forall shaped fs -> chained n fs -> off_kinks (layers_of draw k fs) x ->
  forall j f, fs !! j = Some f -> exists f'', fs'' !! j = Some f'' /\ kept f f'' /\
    let l := layer_of (draw (k + j)%nat) f in let ls := layers_of draw k fs in let m := odim_fcl n fs in
    (forall i, (i < fo f * fi f)%nat -> exists d, el (dw f'') i = el (dw f) i + d /\ slope m (fun t => net (<[j := with_W l (<[i := t]> (weights f))]> ls) x) (el (weights f) i) e d) /\
    (if decide (mode f = FREEZE_BIASES) then db f'' = db f else
     forall i, (i < fo f)%nat -> exists d, el (db f'') i = el (db f) i + d /\ slope m (fun t => net (<[j := with_b l (<[i := t]> (biases f))]> ls) x) (el (biases f) i) e d).
Proof.
  induction fs as [|f0 fs IH]; intros k n x e fs'' Hg Hs Hc Hk j f Hj; [done|]. destruct fs'' as [|g fs'']; [done|]. cbn [grown] in Hg. destruct Hg as [Hg1 Hg].
  apply list.Forall_cons in Hs as [Hs0 Hs]. destruct Hc as (Hi & Hsm & Hc). cbn [layers_of off_kinks] in Hk. rewrite odim_cons. destruct j as [|j].
  - cbn in Hj. injection Hj as <-. exists g. split; [done|]. destruct Hg1 as (a & b & c & d & ed & w & bb & t & t3 & e2 & -> & -> & ->).
    split. { unfold kept. cbn. rewrite imap_length. split_and!; try done. destruct (decide _); [done|by rewrite imap_length]. }
    cbv zeta. rewrite Nat.add_0_r. cbn [layers_of]. destruct Hs0 as (L1 & L2 & L3 & L4 & _).
    pose proof (dims_layers draw fs (fo f0) (S k) Hc) as Hd. rewrite <- (odim_layers draw fs (fo f0) (S k)).
    split.
    + intros i Hlt. eexists. split; [cbn [dw set_bp]; rewrite el_imap by lia; reflexivity|]. apply (W_slope (layer_of (draw k) f0) (layers_of draw (S k) fs) x e i); [done|done|done|done].
    + cbn [db set_bp]. destruct (decide (mode f0 = FREEZE_BIASES)); [done|]. intros i Hlt. eexists. split; [rewrite el_imap by lia; reflexivity|].
      apply (b_slope (layer_of (draw k) f0) (layers_of draw (S k) fs) x e i); done.
  - destruct (IH (S k) (fo f0) _ e fs'' Hg Hs Hc ltac:(apply Hk) j f Hj) as (f'' & E & Hkp & HH). exists f''. split; [exact E|]. split; [done|].
    cbv zeta in HH |- *. replace (S k + j)%nat with (k + S j)%nat in HH by lia. exact HH.
Qed.
Lemma input_slope draw fs n x e i : chained n fs -> length x = n -> (i < n)%nat -> off_kinks (layers_of draw 0 fs) x ->
  slope (odim_fcl n fs) (fun t => net (layers_of draw 0 fs) (<[i := t]> x)) (el x i) e (el (err (layers_of draw 0 fs) x e) i).
Proof.
  intros Hc Hx Hi Hk. destruct (net_curve (layers_of draw 0 fs) (el x i) n (fun t => <[i := t]> x) (fun j => if decide (j = i) then 1 else 0)) as (y' & Hy & He).
  - by apply dims_layers.
  - intros j Hj. apply dlim_el. lia.
  - by rewrite upd_self.
  - rewrite odim_layers in Hy, He. exists y'. split; [done|]. rewrite He, upd_self. symmetry.
    rewrite (sumn_ext n _ (fun j => if decide (j = i) then el (err (layers_of draw 0 fs) x e) j else 0)); [by apply sumn_delta|]. intros j _. destruct (decide _); lra.
Qed.
