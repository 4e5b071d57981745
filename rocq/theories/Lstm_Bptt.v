(** The chain rule through cells, layers and time, along differentiable curves of parameters and states. *)
From Verif Require Import NumLib3 Act_Model Act_Props Lstm_Model Lstm_Spec Lstm_Proofs.
Open Scope R_scope.

Definition psize (n m : nat) (p : param) : nat := match p with W => m * n | U => m * m | B => m end.
(** what a backward step adds to the errors of the parameters *)
Definition ginc (d z : quad) (x h : list R) (n m : nat) (p : param) (g : gate) (k : nat) : R :=
  match p with
  | W => delta d z g (k / n)%nat * el x (k mod n)%nat
  | U => delta d z g (k / m)%nat * el h (k mod m)%nat
  | B => delta d z g k
  end.
Definition sump (f : param -> R) : R := f W + f U + f B.
Definition pair_ (n m : nat) (dW inc : param -> gate -> nat -> R) : R :=
  sump (fun p => sumg (fun g => sumn (psize n m p) (fun k => dW p g k * inc p g k))).

Section curve.
  Context (s0 : R).
  Definition vcurve (m : nat) (v : R -> list R) (v' : nat -> R) : Prop := forall k, (k < m)%nat -> derivable_pt_lim (fun s => el (v s) k) s0 (v' k).
  Definition lcurve (L : R -> lstm) (l : lstm) (dW : param -> gate -> nat -> R) : Prop :=
    L s0 = l /\ (forall s, l_in (L s) = l_in l /\ l_out (L s) = l_out l /\ l_up (L s) = l_up l /\ l_right (L s) = l_right l) /\
    forall p g k, derivable_pt_lim (fun s => el (get_p (L s) p g) k) s0 (dW p g k).

  Lemma affine_curve L l dW n m x x' h h' g i : lcurve L l dW -> vcurve n x x' -> vcurve m h h' ->
    derivable_pt_lim (fun s => affine (l_w (L s)) (l_u (L s)) (l_b (L s)) n m (x s) (h s) g i) s0
      (sumn n (fun j => dW W g (i * n + j)%nat * el (x s0) j + el (at_gate (l_w l) g) (i * n + j)%nat * x' j) +
       sumn m (fun j => dW U g (i * m + j)%nat * el (h s0) j + el (at_gate (l_u l) g) (i * m + j)%nat * h' j) + dW B g i).
  Proof.
    intros (<- & _ & Hd) Hx Hh. unfold affine. apply dlim_plus; [apply dlim_plus|].
    - apply (dlim_sumn n (fun j s => el (at_gate (l_w (L s)) g) (i * n + j)%nat * el (x s) j)). intros j Hj.
      apply (dlim_mult (fun s => el (at_gate (l_w (L s)) g) (i * n + j)%nat) (fun s => el (x s) j)); [apply (Hd W)|by apply Hx].
    - apply (dlim_sumn m (fun j s => el (at_gate (l_u (L s)) g) (i * m + j)%nat * el (h s) j)). intros j Hj.
      apply (dlim_mult (fun s => el (at_gate (l_u (L s)) g) (i * m + j)%nat) (fun s => el (h s) j)); [apply (Hd U)|by apply Hh].
    - apply (Hd B).
  Qed.

  (** the cell, along a curve of pre-activations and old cell states *)
  Lemma cell_curve (a : R -> gate -> nat -> R) a' c c' i : (forall g, derivable_pt_lim (fun s => a s g i) s0 (a' g)) -> derivable_pt_lim (fun s => el (c s) i) s0 c' ->
    let A := a s0 in
    let dc := c' * sigmoid (A Forget i) + el (c s0) i * (derivative_sigmoid (A Forget i) * a' Forget) +
              derivative_sigmoid (A Input i) * a' Input * tanhh (A Candidate i) + sigmoid (A Input i) * (derivative_tanhh (A Candidate i) * a' Candidate) in
    derivable_pt_lim (fun s => new_cell (a s) (c s) i) s0 dc /\
    derivable_pt_lim (fun s => new_hidden (a s) (c s) i) s0
      (derivative_sigmoid (A Output i) * a' Output * tanhh (new_cell A (c s0) i) + sigmoid (A Output i) * (derivative_tanhh (new_cell A (c s0) i) * dc)).
  Proof.
    intros Ha Hc A dc.
    assert (Hs : forall g, derivable_pt_lim (fun s => sigmoid (a s g i)) s0 (derivative_sigmoid (A g i) * a' g)).
    { intros g. apply (dlim_comp (fun s => a s g i) sigmoid); [apply Ha|apply C22_sigmoid_derivative]. }
    assert (Hcell : derivable_pt_lim (fun s => new_cell (a s) (c s) i) s0 dc).
    { assert (E : forall s, new_cell (a s) (c s) i = sigmoid (a s Forget i) * el (c s) i + sigmoid (a s Input i) * tanhh (a s Candidate i)).
      { intros s. unfold new_cell. by rewrite !sigmoid_logi, C22_tanhh_is_tanh. }
      eapply dlim_ext; [exact E|]. eapply dlim_val; cycle 1.
      - apply (dlim_plus (fun s => sigmoid (a s Forget i) * el (c s) i) (fun s => sigmoid (a s Input i) * tanhh (a s Candidate i))).
        + apply (dlim_mult (fun s => sigmoid (a s Forget i)) (fun s => el (c s) i)); [apply Hs|apply Hc].
        + apply (dlim_mult (fun s => sigmoid (a s Input i)) (fun s => tanhh (a s Candidate i))); [apply Hs|].
          apply (dlim_comp (fun s => a s Candidate i) tanhh); [apply Ha|apply C22_tanh_derivative].
      - unfold dc. unfold A. ring. }
    split; [done|].
    assert (E : forall s, new_hidden (a s) (c s) i = sigmoid (a s Output i) * tanhh (new_cell (a s) (c s) i)).
    { intros s. unfold new_hidden. by rewrite sigmoid_logi, C22_tanhh_is_tanh. }
    eapply dlim_ext; [exact E|].
    eapply dlim_val; cycle 1.
    - apply (dlim_mult (fun s => sigmoid (a s Output i)) (fun s => tanhh (new_cell (a s) (c s) i))); [apply Hs|].
      apply (dlim_comp (fun s => new_cell (a s) (c s) i) tanhh); [apply Hcell|apply C22_tanh_derivative].
    - unfold A. ring.
  Qed.

  (** the adjoint identity for one cell vector *)
  Lemma cell_adjoint L l dW x x' h h' c c' : let n := l_in l in let m := l_out l in
    lcurve L l dW -> vcurve n x x' -> vcurve m h h' -> vcurve m c c' ->
    let a := fun s g i => affine (l_w (L s)) (l_u (L s)) (l_b (L s)) n m (x s) (h s) g i in
    exists hh cc, (forall i, (i < m)%nat -> derivable_pt_lim (fun s => new_hidden (a s) (c s) i) s0 (hh i)) /\
      (forall i, (i < m)%nat -> derivable_pt_lim (fun s => new_cell (a s) (c s) i) s0 (cc i)) /\
      forall (d z : quad) (A N : nat -> R),
        (forall g i, (i < m)%nat -> el (at_gate z g) i = a s0 g i) ->
        (forall i, (i < m)%nat -> el (q_o d) i = A i * tanhh (new_cell (a s0) (c s0) i) /\
           el (q_c d) i = A i * sigmoid (el (q_o z) i) * derivative_tanhh (new_cell (a s0) (c s0) i) + N i /\
           el (q_i d) i = el (q_c d) i * tanhh (el (q_c z) i) /\ el (q_f d) i = el (q_c d) i * el (c s0) i) ->
        sumn m (fun i => A i * hh i + N i * cc i) =
          pair_ n m dW (ginc d z (x s0) (h s0) n m) + sumn n (fun j => flow d z (l_w l) m n j * x' j) + sumn m (fun j => flow d z (l_u l) m m j * h' j) +
          sumn m (fun i => el (q_c d) i * sigmoid (el (q_f z) i) * c' i).
  Proof.
    intros n m HL Hx Hh Hc a.
    set (a' := fun g i => sumn n (fun j => dW W g (i * n + j)%nat * el (x s0) j + el (at_gate (l_w l) g) (i * n + j)%nat * x' j) +
       sumn m (fun j => dW U g (i * m + j)%nat * el (h s0) j + el (at_gate (l_u l) g) (i * m + j)%nat * h' j) + dW B g i).
    assert (Ha : forall g i, derivable_pt_lim (fun s => a s g i) s0 (a' g i)) by (intros; by apply affine_curve).
    set (cc := fun i => c' i * sigmoid (a s0 Forget i) + el (c s0) i * (derivative_sigmoid (a s0 Forget i) * a' Forget i) +
              derivative_sigmoid (a s0 Input i) * a' Input i * tanhh (a s0 Candidate i) + sigmoid (a s0 Input i) * (derivative_tanhh (a s0 Candidate i) * a' Candidate i)).
    set (hh := fun i => derivative_sigmoid (a s0 Output i) * a' Output i * tanhh (new_cell (a s0) (c s0) i) + sigmoid (a s0 Output i) * (derivative_tanhh (new_cell (a s0) (c s0) i) * cc i)).
    exists hh, cc. split; [|split].
    - intros i Hi. apply (cell_curve a (fun g => a' g i) c (c' i) i (fun g => Ha g i) (Hc i Hi)).
    - intros i Hi. apply (cell_curve a (fun g => a' g i) c (c' i) i (fun g => Ha g i) (Hc i Hi)).
    - intros d z A N Hz Hd.
      transitivity (sumn m (fun i => sumg (fun g => delta d z g i * a' g i) + el (q_c d) i * sigmoid (el (q_f z) i) * c' i)).
      { apply sumn_ext. intros i Hi. destruct (Hd i Hi) as (E1 & E2 & E3 & E4). unfold sumg, delta. cbn [at_gate].
        pose proof (Hz Forget i Hi) as Z1. pose proof (Hz Input i Hi) as Z2. pose proof (Hz Output i Hi) as Z3. pose proof (Hz Candidate i Hi) as Z4. cbn [at_gate] in *.
        rewrite E4, E3, E2, E1, Z1, Z2, Z3, Z4. unfold hh, cc. ring. }
      rewrite sumn_plus. f_equal. rewrite (sumg_sumn m (fun g i => delta d z g i * a' g i)).
      assert (Hg : forall g, sumn m (fun i => delta d z g i * a' g i) =
        sump (fun p => sumn (psize n m p) (fun k => dW p g k * ginc d z (x s0) (h s0) n m p g k)) +
        sumn n (fun j => sumn m (fun i => delta d z g i * el (at_gate (l_w l) g) (i * n + j)%nat) * x' j) +
        sumn m (fun j => sumn m (fun i => delta d z g i * el (at_gate (l_u l) g) (i * m + j)%nat) * h' j)).
      { intros g. unfold sump, psize, ginc. rewrite !sumn_mul.
        transitivity (sumn m (fun i => sumn n (fun j => delta d z g i * (dW W g (i * n + j)%nat * el (x s0) j)) + sumn n (fun j => delta d z g i * el (at_gate (l_w l) g) (i * n + j)%nat * x' j)
          + sumn m (fun j => delta d z g i * (dW U g (i * m + j)%nat * el (h s0) j)) + sumn m (fun j => delta d z g i * el (at_gate (l_u l) g) (i * m + j)%nat * h' j) + dW B g i * delta d z g i)).
        { apply sumn_ext. intros i Hi. unfold a'. rewrite !sumn_plus. rewrite !Rmult_plus_distr_l. rewrite <- !sumn_scal_l.
          rewrite (sumn_ext n (fun i0 => delta d z g i * (el (at_gate (l_w l) g) (i * n + i0)%nat * x' i0)) (fun j => delta d z g i * el (at_gate (l_w l) g) (i * n + j)%nat * x' j)) by (intros; ring).
          rewrite (sumn_ext m (fun i0 => delta d z g i * (el (at_gate (l_u l) g) (i * m + i0)%nat * h' i0)) (fun j => delta d z g i * el (at_gate (l_u l) g) (i * m + j)%nat * h' j)) by (intros; ring).
          ring. }
        rewrite !sumn_plus.
        rewrite (sumn_swap m n (fun i j => delta d z g i * el (at_gate (l_w l) g) (i * n + j)%nat * x' j)).
        rewrite (sumn_swap m m (fun i j => delta d z g i * el (at_gate (l_u l) g) (i * m + j)%nat * h' j)).
        rewrite (sumn_ext n (fun j => sumn m (fun i => delta d z g i * el (at_gate (l_w l) g) (i * n + j)%nat * x' j)) (fun j => sumn m (fun i => delta d z g i * el (at_gate (l_w l) g) (i * n + j)%nat) * x' j)) by (intros; by rewrite sumn_scal_r).
        rewrite (sumn_ext m (fun j => sumn m (fun i => delta d z g i * el (at_gate (l_u l) g) (i * m + j)%nat * h' j)) (fun j => sumn m (fun i => delta d z g i * el (at_gate (l_u l) g) (i * m + j)%nat) * h' j)) by (intros; by rewrite sumn_scal_r).
        rewrite (sumn_ext m (fun i => sumn n (fun j => delta d z g i * (dW W g (i * n + j)%nat * el (x s0) j)))
          (fun i => sumn n (fun j => dW W g (i * n + j)%nat * (delta d z g ((i * n + j) / n)%nat * el (x s0) ((i * n + j) mod n)%nat)))).
        2:{ intros i Hi. apply sumn_ext. intros j Hj. rewrite flat_div, flat_mod by done. ring. }
        rewrite (sumn_ext m (fun i => sumn m (fun j => delta d z g i * (dW U g (i * m + j)%nat * el (h s0) j)))
          (fun i => sumn m (fun j => dW U g (i * m + j)%nat * (delta d z g ((i * m + j) / m)%nat * el (h s0) ((i * m + j) mod m)%nat)))).
        2:{ intros i Hi. apply sumn_ext. intros j Hj. rewrite flat_div, flat_mod by done. ring. }
        ring. }
      rewrite (sumg_ext _ _ Hg). unfold pair_, flow.
      rewrite (sumn_ext n (fun j => sumn m (fun i => sumg (fun g => delta d z g i * el (at_gate (l_w l) g) (i * n + j)%nat)) * x' j)
        (fun j => sumg (fun g => sumn m (fun i => delta d z g i * el (at_gate (l_w l) g) (i * n + j)%nat) * x' j))).
      2:{ intros j Hj. rewrite (sumg_sumn m (fun g i => delta d z g i * el (at_gate (l_w l) g) (i * n + j)%nat)). unfold sumg. ring. }
      rewrite (sumn_ext m (fun j => sumn m (fun i => sumg (fun g => delta d z g i * el (at_gate (l_u l) g) (i * m + j)%nat)) * h' j)
        (fun j => sumg (fun g => sumn m (fun i => delta d z g i * el (at_gate (l_u l) g) (i * m + j)%nat) * h' j))).
      2:{ intros j Hj. rewrite (sumg_sumn m (fun g i => delta d z g i * el (at_gate (l_u l) g) (i * m + j)%nat)). unfold sumg. ring. }
      rewrite (sumg_sumn n (fun g j => sumn m (fun i => delta d z g i * el (at_gate (l_w l) g) (i * n + j)%nat) * x' j)).
      rewrite (sumg_sumn m (fun g j => sumn m (fun i => delta d z g i * el (at_gate (l_u l) g) (i * m + j)%nat) * h' j)).
      unfold sumg, sump. ring.
  Qed.
End curve.
