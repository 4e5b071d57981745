(** Differentiating a network of dense layers along a curve: the reverse-mode errors are the adjoints. *)
From Coquelicot Require Import Coquelicot.
From Verif Require Import NumLib NumLib2 Grad Deriv Act_Model Act_Props Softmax_Props FC_Spec FC_Proofs Attn_Props Vec_Model Vec_Proofs Mlp_Model Mlp_Spec Mlp_Proofs.
Open Scope R_scope.

Definition cur (s0 : R) (n : nat) (v : R -> list R) (v' : nat -> R) : Prop :=
  forall k, (k < n)%nat -> derivable_pt_lim (fun s => el (v s) k) s0 (v' k).

Definition dact (a : nat) (z : R) : R :=
  if decide (a = SIGMOID) then derivative_sigmoid z
  else if decide (a = TANH) then derivative_tanhh z
  else if decide (a = RELU) then derivative_relu z
  else if decide (a = LEAKY_RELU) then derivative_leaky_relu z
  else if decide (a = ELU) then derivative_elu z 1
  else 1.
Definition back (a n : nat) (z : list R) (u : nat -> R) (i : nat) : R :=
  if decide (a = SOFTMAX) then softmax_of everything n z i * (u i - sumn n (fun k => u k * softmax_of everything n z k))
  else u i * dact a (el z i).

Lemma dact_lim a z : (kinked a -> z <> 0) -> derivable_pt_lim (activation a) z (dact a z).
Proof.
  intros Hk. unfold dact.
  destruct (decide (a = SIGMOID)) as [->|H1].
  { eapply dlim_ext; [|apply C22_sigmoid_derivative]. intros t. unfold activation. pick. symmetry. apply C22_sigmoid_is_logistic. }
  destruct (decide (a = TANH)) as [->|H2].
  { eapply dlim_ext; [|apply C22_tanh_derivative]. intros t. unfold activation. pick. symmetry. apply C22_tanhh_is_tanh. }
  destruct (decide (a = RELU)) as [->|H3].
  { eapply dlim_ext; [|apply C22_relu_derivative; apply Hk; by left]. intros t. unfold activation. pick. symmetry. apply relu_max. }
  destruct (decide (a = LEAKY_RELU)) as [->|H4].
  { eapply dlim_ext; [|apply C22_leaky_relu_derivative; apply Hk; by right; left]. intros t. unfold activation. pick. symmetry. apply leaky_max. }
  destruct (decide (a = ELU)) as [->|H5].
  { eapply dlim_ext; [|apply C22_elu_derivative; apply Hk; by right; right]. intros t. unfold activation. pick. symmetry. apply elu_max. }
  eapply dlim_ext; [|apply dlim_id]. intros t. unfold activation. by rewrite !decide_False by done.
Qed.

Lemma act_curve s0 a n z z' : cur s0 n z z' -> (kinked a -> forall i, (i < n)%nat -> el (z s0) i <> 0) ->
  exists y', (forall i, (i < n)%nat -> derivable_pt_lim (fun s => activations a n (z s) i) s0 (y' i)) /\
    forall u, sumn n (fun i => u i * y' i) = sumn n (fun i => back a n (z s0) u i * z' i).
Proof.
  intros Hz Hk. destruct (decide (a = SOFTMAX)) as [->|Ha].
  - set (w := softmax_of everything n (z s0)). exists (fun i => w i * (z' i - sumn n (fun k => w k * z' k))). split.
    + intros i Hi. pose proof (curve_softmax n (fun k s => el (z s) k) z' (fun k => if decide (k = i) then 1 else 0) s0 ltac:(lia) Hz) as H. cbv zeta in H.
      eapply dlim_ext; [|eapply dlim_val; [|exact H]].
      * intros s. unfold activations. rewrite decide_True by done. unfold softmax_of, active_sum, everything.
        symmetry. rewrite (sumn_ext n _ (fun k => if decide (k = i) then exp (el (z s) k) / sumn n (fun k => exp (el (z s) k)) else 0)); [|intros k _; destruct (decide (k = i)); lra].
        by rewrite (sumn_delta n i (fun k => exp (el (z s) k) / sumn n (fun k => exp (el (z s) k)))).
      * assert (Hw : forall j, exp (el (z s0) j) / sumn n (fun s => exp (el (z s0) s)) = w j) by done.
        assert (HD : sumn n (fun k => (if decide (k = i) then 1 else 0) * (exp (el (z s0) k) / sumn n (fun s => exp (el (z s0) s)))) = w i).
        { rewrite (sumn_ext n _ (fun k => if decide (k = i) then w k else 0)); [by apply sumn_delta|]. intros k _. rewrite Hw. destruct (decide (k = i)); lra. }
        cbv beta; rewrite HD.
        rewrite (sumn_ext n (fun j => z' j * _) (fun j => (if decide (j = i) then z' j * w j else 0) - w i * (w j * z' j))).
        2:{ intros k _. rewrite Hw. destruct (decide (k = i)); subst; lra. }
        rewrite sumn_minus, sumn_scal_l. rewrite (sumn_delta n i (fun j => z' j * w j)) by done. lra.
    + intros u. unfold back. rewrite (sumn_ext n _ (fun i => u i * w i * z' i - sumn n (fun k => w k * z' k) * (u i * w i))) by (intros; lra).
      rewrite (sumn_ext n (fun i => (if decide _ then _ else _) * z' i) (fun i => u i * w i * z' i - sumn n (fun k => u k * w k) * (w i * z' i))).
      2:{ intros i _. rewrite decide_True by done. fold w. lra. }
      rewrite !sumn_minus, !sumn_scal_l. lra.
  - exists (fun i => dact a (el (z s0) i) * z' i). split.
    + intros i Hi. eapply dlim_ext; [|apply (dlim_comp (fun s => el (z s) i) (activation a)); [by apply Hz|apply dact_lim; intros; by apply Hk]].
      intros s. unfold activations. by rewrite decide_False.
    + intros u. apply sumn_ext. intros i _. unfold back. rewrite decide_False by done. lra.
Qed.

(** reverse-mode errors of the specification *)
Definition err_out (l : dl) (x e : list R) (i : nat) : R := back (d_act l) (d_out l) (affine l x) (fun i => d_keep l i * el e i) i.
Definition err_in (l : dl) (x e : list R) : list R :=
  map (fun i => sumn (d_out l) (fun j => err_out l x e j * el (d_W l) (j * d_in l + i)%nat)) (seq 0 (d_in l)).
Fixpoint err (ls : list dl) (x e : list R) : list R := match ls with [] => e | l :: ls => err_in l x (err ls (apply_layer l x) e) end.
Fixpoint dims (n : nat) (ls : list dl) : Prop :=
  match ls with [] => True | l :: ls => d_in l = n /\ dims (d_out l) ls end.
Fixpoint odim (n : nat) (ls : list dl) : nat := match ls with [] => n | l :: ls => odim (d_out l) ls end.

Definition shut (l : dl) (z : list R) : list R := map (fun i => d_keep l i * activations (d_act l) (d_out l) z i) (seq 0 (d_out l)).
Lemma shut_curve s0 l x z z' : cur s0 (d_out l) z z' -> z s0 = affine l x -> (kinked (d_act l) -> forall i, (i < d_out l)%nat -> el (affine l x) i <> 0) ->
  exists y', cur s0 (d_out l) (fun s => shut l (z s)) y' /\ forall e, sumn (d_out l) (fun i => el e i * y' i) = sumn (d_out l) (fun i => err_out l x e i * z' i).
Proof.
  intros Hz E Hk. rewrite <- E in Hk. destruct (act_curve s0 (d_act l) (d_out l) z z' Hz Hk) as (y' & Hy & Hu). exists (fun i => d_keep l i * y' i). split.
  - intros i Hi. eapply dlim_ext; [|apply dlim_scal, (Hy i Hi)]. intros s. unfold shut. by rewrite el_map_seq by done.
  - intros e. unfold err_out. rewrite <- E. rewrite <- (Hu (fun i => d_keep l i * el e i)). apply sumn_ext. intros. lra.
Qed.

Lemma affine_curve s0 l x x' : cur s0 (d_in l) x x' -> cur s0 (d_out l) (fun s => affine l (x s)) (fun j => sumn (d_in l) (fun i => el (d_W l) (j * d_in l + i)%nat * x' i)).
Proof.
  intros Hx j Hj. eapply dlim_ext; [intros s; unfold affine; by apply el_dense|].
  eapply dlim_val; [|apply dlim_plus; [apply dlim_const|apply (dlim_sumn (d_in l) (fun i s => el (d_W l) (j * d_in l + i)%nat * el (x s) i)); intros i Hi; apply dlim_scal, (Hx i Hi)]]. cbn beta. lra.
Qed.
Lemma net_curve ls : forall s0 n x x', dims n ls -> cur s0 n x x' -> off_kinks ls (x s0) ->
  exists y', cur s0 (odim n ls) (fun s => net ls (x s)) y' /\ forall e, sumn (odim n ls) (fun i => el e i * y' i) = sumn n (fun i => el (err ls (x s0) e) i * x' i).
Proof.
  induction ls as [|l ls IH]; intros s0 n x x' Hd Hx Hk.
  - exists x'. done.
  - destruct Hd as [Hn Hd]. destruct Hk as [Hk1 Hk]. subst n.
    destruct (shut_curve s0 l (x s0) _ _ (affine_curve s0 l x x' Hx) eq_refl Hk1) as (y' & Hy & He).
    destruct (IH s0 (d_out l) (fun s => apply_layer l (x s)) y' Hd Hy Hk) as (w' & Hw & Hw'). exists w'. split; [exact Hw|]. intros e. cbn [odim err]. rewrite Hw'. rewrite He.
    rewrite (sumn_ext (d_in l) (fun i => el (err_in _ _ _) i * x' i) (fun i => sumn (d_out l) (fun j => err_out l (x s0) (err ls (apply_layer l (x s0)) e) j * el (d_W l) (j * d_in l + i)%nat * x' i))).
    + rewrite sumn_swap. apply sumn_ext. intros j Hj. rewrite <- sumn_scal_l. apply sumn_ext. intros. lra.
    + intros i Hi. unfold err_in. rewrite el_map_seq by done. by rewrite sumn_scal_r.
Qed.
