(** C71: inverse Q-learning: what is trained, with which derivative, and where it is wrong *)
From Verif Require Import NumLib Deriv Grad Shuffle_Model Shuffle_Spec Iq_Model Iq_Spec Iq_Proofs.
From Coq Require Import Reals Lia Lra.
Open Scope nat_scope.

Section props.
  Context {P G O : Type} (g0 : G) (gadd : G -> G -> G).
  Context (fwd : P -> vec -> vec) (bwd : P -> vec -> vec -> G) (clip : P -> G -> G) (upd : O -> P -> G -> P) (next : O -> O).
  Notation train := (train_iqn g0 gadd fwd bwd clip upd next).

  (** Whatever the number of threads: n epochs train along n orders of the transitions, batch by batch, each batch with
      the sum of the derivatives of its transitions, all computed with the parameters before the update, added to the
      derivatives that were there before; after epoch i the parameters are saved under the number i. *)
  Theorem iq_train_spec rmax rand q n st :
    (∀ g, gadd g0 g = g) -> (∀ p x, length (fwd p x) = outdim q) -> data_ok q -> (∀ i, rand_ok rmax (rand i)) ->
    ∃ orders, length orders = n /\ Forall (λ o, o ≡ₚ seq 0 (size q)) orders /\
      train rmax rand q n st = Some (run gadd fwd bwd clip upd next q 0 orders st).
  Proof. intros Hu Hf Hd Hr. by apply epochs_ok. Qed.

  (** The result is exactly the same for every number of threads (even when the data are too short and the
      program leaves its arrays). *)
  Theorem iq_threads_do_not_matter rmax rand q k n st :
    (∀ g, gadd g0 g = g) -> 1 <= threads q -> 1 <= k -> train rmax rand (set_threads k q) n st = train rmax rand q n st.
  Proof. intros Hu HT Hk. by apply epochs_threads. Qed.

  (** In an epoch every transition is trained on exactly once, in full batches. *)
  Theorem iq_each_transition_once q order :
    data_ok q -> order ≡ₚ seq 0 (size q) -> concat (batches q order) = order /\ Forall (λ l, length l = batch_size q) (batches q order).
  Proof.
    intros Hd Hp. assert (Hl : length order = size q) by (rewrite Hp; apply seq_length). split; [by apply concat_batches|].
    destruct Hd as (_ & _ & _ & Hb & _ & Hdiv). apply list.Forall_forall. intros l Hin. apply elem_of_list_fmap in Hin as (b & -> & Hb').
    apply elem_of_seq in Hb'. rewrite take_length, drop_length, Hl. rewrite Nat.min_l; [done|]. nia.
  Qed.

  (** The saved networks: one per epoch, numbered from 0, the last is the final one. *)
  Theorem iq_saved q i orders st :
    fst <$> snd (run gadd fwd bwd clip upd next q i orders st) = seq i (length orders) /\
    (orders <> [] -> list.last (snd <$> snd (run gadd fwd bwd clip upd next q i orders st)) = Some (fst (fst (fst (run gadd fwd bwd clip upd next q i orders st))))).
  Proof.
    revert i st. induction orders as [|o os IH]; intros i st; [by split|]. cbn.
    destruct (IH (S i) (epoch_step gadd fwd bwd clip upd next q o st)) as [E1 E2]. split; [by rewrite E1|].
    intros _. destruct os as [|o' os']; [done|]. rewrite <- E2 by done. cbn. done.
  Qed.

  (** A transition without a next state is trained on by its own state and action alone. *)
  Theorem iq_terminal_transitions q q' p i :
    continues q i = false -> continues q' i = false -> nth i (states q) [] = nth i (states q') [] -> nth i (actions q) 0%Z = nth i (actions q') 0%Z ->
    alpha1 q = alpha1 q' -> alpha2 q = alpha2 q' -> outdim q = outdim q' ->
    transition_grad fwd bwd q p i = transition_grad fwd bwd q' p i.
  Proof. intros C C' Es Ea E1 E2 Eo. unfold transition_grad, next_values. by rewrite C, C', Es, Ea, E1, E2, Eo. Qed.

  (** The derivatives of earlier batches are never removed: without clipping, an update gets the sum of the
      derivatives of all batches since the training began, each computed with the parameters of its time. *)
  Fixpoint all_derivatives (q : iq) (ls : list (list nat)) (st : P * G * O) : list G :=
    match ls with
    | [] => []
    | l :: ls => (transition_grad fwd bwd q (fst (fst st)) <$> l) ++ all_derivatives q ls (batch_step gadd fwd bwd clip upd next q l st)
    end.
  Theorem iq_derivatives_never_cleared_refuted q ls p g o :
    (∀ p g, clip p g = g) ->
    snd (fst (fold_left (λ st l, batch_step gadd fwd bwd clip upd next q l st) ls (p, g, o))) = fold_left gadd (all_derivatives q ls (p, g, o)) g.
  Proof.
    intros Hc. revert p g o. induction ls as [|l ls IH]; intros p g o; [done|].
    cbn [fold_left all_derivatives]. rewrite fold_left_app.
    assert (E : fold_left gadd (transition_grad fwd bwd q (fst (fst (p, g, o))) <$> l) g = snd (fst (batch_step gadd fwd bwd clip upd next q l (p, g, o)))).
    { unfold batch_step. cbn [fst snd]. rewrite Hc. unfold batch_grad. clear. revert g. induction l as [|i l IH]; intros g; [done|]. cbn. apply IH. }
    rewrite E. destruct (batch_step gadd fwd bwd clip upd next q l (p, g, o)) as [[p' g'] o'] eqn:Eb. apply IH.
  Qed.
End props.

(** Trained n times on one batch with a learning rate so small that the parameters do not move, the n-th update gets
    n times the derivative of the batch. *)
Theorem iq_nth_update_gets_n_batches_refuted {P O : Type} (fwd : P -> vec -> vec) (bwd : P -> vec -> vec -> R) (next : O -> O) q l p o n :
  snd (fst (fold_left (λ st l, batch_step Rplus fwd bwd (λ _ g, g) (λ _ p _, p) next q l st) (replicate n l) (p, 0%R, o)))
  = (INR n * batch_grad Rplus fwd bwd q p l 0)%R.
Proof.
  rewrite iq_derivatives_never_cleared_refuted by done.
  assert (Hb : ∀ k g, fold_left Rplus k g = (g + fold_left Rplus k 0)%R).
  { induction k as [|x k IH]; intros g; cbn; [lra|]. rewrite IH, (IH (0 + x)%R). lra. }
  assert (El : ∀ g, batch_grad Rplus fwd bwd q p l g = fold_left Rplus (transition_grad fwd bwd q p <$> l) g).
  { intros g. unfold batch_grad. clear. revert g. induction l as [|i l IH]; intros g; [done|]. cbn. apply IH. }
  rewrite El.
  assert (Hg : ∀ n g o g', fold_left Rplus (all_derivatives Rplus fwd bwd (λ _ g, g) (λ _ p _, p) next q (replicate n l) (p, g, o)) g' = (g' + INR n * fold_left Rplus (transition_grad fwd bwd q p <$> l) 0)%R).
  { clear n o. induction n as [|n IH]; intros g o g'; [cbn; lra|]. cbn [replicate all_derivatives]. rewrite fold_left_app.
    unfold batch_step. cbn [fst]. rewrite IH, (Hb _ g'), S_INR. lra. }
  rewrite Hg. lra.
Qed.

(** ** the derivative *)
Local Open Scope R_scope.

(** The derivative the networks are trained with is exact, but for another loss than the documented one: both soft values
    are divided by the number of actions. *)
Theorem iq_derivative_of_averaged_loss cur nxt a alpha1 alpha2 gamma n :
  length cur = n -> length nxt = n -> (a < n)%nat -> alpha1 <> 0 -> alpha2 <> 0 -> 0 < gamma ->
  el cur a - gamma * (soft_value alpha1 nxt / INR n) <> 0 ->
  ∃ e, derivative_inverse_q cur nxt (replicate n 0) (one_hot n (Z.of_nat a)) alpha1 alpha2 gamma n = Some e /\ length e = n /\
    ∀ k, (k < n)%nat -> has_partial (iq_loss (/ INR n) alpha1 alpha2 gamma (soft_value alpha1 nxt / INR n) a) cur k (el e k).
Proof.
  intros Lc Ln Ha Ha1 Ha2 Hg Hne. rewrite derivative_run by (rewrite ?replicate_length, ?one_hot_length; lia).
  eexists. split; [done|]. split; [by rewrite imap_length, replicate_length|]. intros k Hk.
  assert (Hn : INR n <> 0) by (apply not_0_INR; lia).
  assert (HS : sumn n (λ i, exp (el cur i / alpha1)) > 0) by (apply sumn_pos; [lia|intros; apply exp_pos]).
  rewrite el_imap by (rewrite replicate_length; lia). unfold iq_entry, mean_value. rewrite (decide_True (P := 0 < gamma)) by done.
  eapply dlim_val; [|apply iq_loss_partial; try done; lia].
  unfold soft_value. rewrite Lc, Ln, el_replicate, el_one_hot by done. set (y := alpha1 * ln _ / INR n).
  destruct (decide (k = a)) as [->|Hka].
  - rewrite (decide_True (P := Z.of_nat a = Z.of_nat a)) by done. rewrite decide_True by lra. f_equal. field. split; lra.
  - rewrite (decide_False (P := Z.of_nat k = Z.of_nat a)) by lia. rewrite decide_False by lra. f_equal. field. split; lra.
Qed.

(** the same without a next state *)
Theorem iq_derivative_terminal cur nxt a alpha1 alpha2 n :
  length cur = n -> length nxt = n -> (a < n)%nat -> alpha1 <> 0 -> alpha2 <> 0 -> el cur a <> 0 ->
  ∃ e, derivative_inverse_q cur nxt (replicate n 0) (one_hot n (Z.of_nat a)) alpha1 alpha2 0 n = Some e /\ length e = n /\
    ∀ k, (k < n)%nat -> has_partial (iq_loss (/ INR n) alpha1 alpha2 0 0 a) cur k (el e k).
Proof.
  intros Lc Ln Ha Ha1 Ha2 Hne. rewrite derivative_run by (rewrite ?replicate_length, ?one_hot_length; lia).
  eexists. split; [done|]. split; [by rewrite imap_length, replicate_length|]. intros k Hk.
  assert (Hn : INR n <> 0) by (apply not_0_INR; lia).
  assert (HS : sumn n (λ i, exp (el cur i / alpha1)) > 0) by (apply sumn_pos; [lia|intros; apply exp_pos]).
  rewrite el_imap by (rewrite replicate_length; lia). unfold iq_entry, mean_value. rewrite (decide_False (P := 0 < 0)) by lra.
  eapply dlim_val; [|apply iq_loss_partial; try done; [lia|lia|by rewrite Rmult_0_l, Rminus_0_r]].
  rewrite Lc, el_replicate, el_one_hot by done.
  destruct (decide (k = a)) as [->|Hka].
  - rewrite (decide_True (P := Z.of_nat a = Z.of_nat a)) by done. rewrite decide_True by lra. f_equal. field. split; lra.
  - rewrite (decide_False (P := Z.of_nat k = Z.of_nat a)) by lia. rewrite decide_False by lra. f_equal. field. split; lra.
Qed.

(** With two or more actions it is not the derivative of the documented loss: for the actions that were not taken it is
    the documented one divided by the number of actions, whatever the next state is. *)
Theorem iq_documented_loss_refuted cur nxt a alpha1 alpha2 gamma v n k d :
  length cur = n -> length nxt = n -> (2 <= n)%nat -> (a < n)%nat -> (k < n)%nat -> k <> a -> alpha1 <> 0 -> alpha2 <> 0 ->
  el cur a - gamma * v <> 0 -> has_partial (iq_loss 1 alpha1 alpha2 gamma v a) cur k d ->
  ∃ e, derivative_inverse_q cur nxt (replicate n 0) (one_hot n (Z.of_nat a)) alpha1 alpha2 gamma n = Some e /\ el e k = d / INR n /\ el e k <> d.
Proof.
  intros Lc Ln Hn Ha Hk Hka Ha1 Ha2 Hne Hd. rewrite derivative_run by (rewrite ?replicate_length, ?one_hot_length; lia).
  eexists. split; [done|]. rewrite el_imap by (rewrite replicate_length; lia). unfold iq_entry.
  rewrite el_replicate, el_one_hot by done. rewrite (decide_False (P := Z.of_nat k = Z.of_nat a)) by lia. rewrite decide_False by lra.
  assert (E := dlim_unique _ _ _ _ Hd (iq_loss_partial 1 alpha1 alpha2 gamma v a cur k Ha1 Ha2 ltac:(lia) ltac:(lia) Hne)).
  rewrite decide_False in E by done. rewrite Lc in E.
  assert (HS : sumn n (λ i, exp (el cur i / alpha1)) > 0) by (apply sumn_pos; [lia|intros; apply exp_pos]).
  set (S := sumn n _) in *. assert (HI : 2 <= INR n) by (apply (le_INR 2 n); lia). pose proof (exp_pos (el cur k / alpha1)) as Hx.
  set (x := exp (el cur k / alpha1)) in *. assert (Hxs : 0 < x / S) by (apply Rdiv_lt_0_compat; lra).
  assert (E2 : 0 + x / (INR n * S) = d / INR n) by (subst d; field; split; lra). split; [done|]. rewrite E2. subst d. intros E3.
  assert (x / S * 2 <= x / S * INR n) by (apply Rmult_le_compat_l; lra).
  assert ((0 + 1 * (x / S)) / INR n * INR n = (0 + 1 * (x / S)) * INR n) by (by rewrite E3).
  replace ((0 + 1 * (x / S)) / INR n * INR n) with (x / S) in * by (field; split; lra). lra.
Qed.
Local Close Scope R_scope.

(** ** a concrete agent: two actions, a network with one weight *)
Definition xf (p : R) (x : vec) : vec := [(p * hd 0 x)%R; p].
Definition xb (p : R) (x e : vec) : R := (el e 0 * hd 0 x + el e 1)%R.
Definition xq : iq := mkIq [[1%R]; [2%R]; [3%R]; [4%R]] [0; 1; 1; 0]%Z [false; true; false; false] 4 2 3 1%R 1%R 1%R 2.
Example x_data : data_ok xq.
Proof. repeat split; cbn; lia. Qed.
Example x_runs : ∃ orders, length orders = 5 /\ Forall (λ o, o ≡ₚ seq 0 (size xq)) orders /\
  train_iqn 0%R Rplus xf xb (λ _ g, g) (λ (o : R) p g, (p - o * g)%R) (λ o, o) 1 (λ _ _, 0%Z) xq 5 (1%R, 0%R, 1%R)
  = Some (run Rplus xf xb (λ _ g, g) (λ (o : R) p g, (p - o * g)%R) (λ o, o) xq 0 orders (1%R, 0%R, 1%R)).
Proof. apply iq_train_spec; [apply Rplus_0_l|done|apply x_data|intros i k; lia]. Qed.
Example x_terminal : continues xq 1 = false /\ continues xq 3 = false /\ continues xq 0 = true /\ continues xq 2 = true.
Proof. done. Qed.
(** the hypotheses on the numbers can be met *)
Example x_partial : ∃ e, derivative_inverse_q [5%R; 0%R] [0%R; 0%R] (replicate 2 0%R) (one_hot 2 0) 1 1 0 2 = Some e /\ length e = 2.
Proof. destruct (iq_derivative_terminal [5%R; 0%R] [0%R; 0%R] 0 1 1 2) as (e & E & L & _); cbn; try lra; try lia; try done. by exists e. Qed.

Print Assumptions iq_train_spec.
Print Assumptions iq_threads_do_not_matter.
Print Assumptions iq_each_transition_once.
Print Assumptions iq_saved.
Print Assumptions iq_terminal_transitions.
Print Assumptions iq_derivatives_never_cleared_refuted.
Print Assumptions iq_nth_update_gets_n_batches_refuted.
Print Assumptions iq_derivative_of_averaged_loss.
Print Assumptions iq_derivative_terminal.
Print Assumptions iq_documented_loss_refuted.
