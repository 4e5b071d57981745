(** C70: what a training step of the deep deterministic policy gradient agent learns, and where it is wrong *)
From Verif Require Import Base BaseLemmas RealSum Ddpg_Model Ddpg_Spec Ddpg_Proofs.
From Coq Require Import Reals Lia Lra.
Open Scope nat_scope.

Section props.
  Context {P G H : Type} (g0 : G) (gadd : G -> G -> G).
  Context (fwd : P -> vec -> vec) (bwd : P -> vec -> vec -> G * vec) (lossd : P -> vec -> vec -> vec).
  Context (upd : H -> Z -> P -> G -> P) (mix : R -> P -> P -> P) (idle : P -> vec) (osize : P -> nat).
  Notation train := (ddpg_train g0 gadd fwd bwd lossd upd mix idle).

  (** What a step does, for all networks, batches and hyper parameters: the critic takes one step towards the
      targets, the policy one step up the *new* critic's value of its own actions, every derivative is the
      sum over the batch and nothing of earlier steps is in it, the target networks move softly to the
      learned ones, and the agent is ready for the next step. *)
  Theorem ddpg_step_spec d :
    laws g0 gadd fwd bwd upd mix idle osize -> ready g0 osize d -> 2 <= m2_output d -> 2 <= m3_output d ->
    ∃ d', train d = Some d' /\ ready g0 osize d' /\
      learned d' = learn g0 gadd fwd bwd lossd upd (m2_output d) (hyper1 d) (hyper2 d)
        (t1 d) (dec64 (t1 d)) (dec64 (dec64 (t1 d))) (t2 d) (batch_of idle d) (learned d) /\
      Forall2 (λ s s', targets s' = soft mix (tau d) (learned d') (targets s) /\ trans_of s' = trans_of s) (slots d) (slots d').
  Proof.
    intros L Hr H2 H3. destruct (train_ok g0 gadd fwd bwd lossd upd mix idle osize L d Hr H2 H3) as (d' & E & R & EL & F & _).
    exists d'. done.
  Qed.

  Theorem ddpg_init_ready (m1 m2 m3 m4 : net) data m2o m3o gam ta (h1 h2 : H) :
    grad m1 = g0 -> grad m2 = g0 -> grad m3 = g0 -> grad m4 = g0 -> osize (par m2) = m2o -> osize (par m3) = m3o -> 1 <= osize (par m4) ->
    let d := init_ddpg (P := P) (G := G) m1 m2 m3 m4 data m2o m3o gam ta h1 h2 in
    ready g0 osize d /\ Forall (λ s, targets s = learned d) (slots d).
  Proof.
    intros. split.
    - unfold ready, d, init_ddpg. cbn. repeat split; try done. apply list.Forall_forall. intros s Hs.
      apply elem_of_list_fmap in Hs as ([[[[s1 s2] a] r] t] & -> & _). by unfold slot_ready, init_slot.
    - apply list.Forall_forall. intros s Hs. unfold d, init_ddpg in *. cbn in *.
      apply elem_of_list_fmap in Hs as ([[[[s1 s2] a] r] t] & -> & _). done.
  Qed.

  Lemma feed_ready l d : ready g0 osize d -> ready (H := H) g0 osize (feed l d).
  Proof.
    intros (A & B & C & D & E & F & Hs). repeat split; try done. cbn.
    apply list.Forall_forall. intros s Hin. apply elem_of_lookup_zip_with in Hin as (i & x & y & -> & Hx & _).
    rewrite Forall_lookup in Hs. exact (Hs _ _ Hx).
  Qed.

  Lemma dec64_dec64 z : (dec64 (dec64 z) = (z - 2) mod 18446744073709551616)%Z.
  Proof.
    unfold dec64. rewrite (Zminus_mod (_ mod _) 1), Zmod_mod, <- Zminus_mod. f_equal. lia.
  Qed.

  (** Any sequence of batches can be trained on; the time step told to the optimiser of the critic is 1-2n
      modulo 2^64 after n steps, that told to the optimiser of the policy stays 1. *)
  Theorem ddpg_history ls d :
    laws g0 gadd fwd bwd upd mix idle osize -> ready g0 osize d -> 2 <= m2_output d -> 2 <= m3_output d -> (0 <= t1 d < 18446744073709551616)%Z ->
    ∃ d', trainings train ls d = Some d' /\ ready g0 osize d' /\
      t1 d' = ((t1 d - 2 * Z.of_nat (length ls)) mod 18446744073709551616)%Z /\ t2 d' = t2 d /\
      m2_output d' = m2_output d /\ m3_output d' = m3_output d /\ hyper1 d' = hyper1 d /\ hyper2 d' = hyper2 d.
  Proof.
    intros L. revert d. induction ls as [|l ls IH]; intros d Hr H2 H3 Ht.
    - exists d. cbn. rewrite Z.sub_0_r, Z.mod_small by done. done.
    - destruct (train_ok g0 gadd fwd bwd lossd upd mix idle osize L (feed l d) (feed_ready l d Hr) H2 H3)
        as (d1 & E & R & _ & _ & Et1 & Et2 & Em2 & Em3 & _ & _ & Eh1 & Eh2).
      cbn [feed t1 t2 m2_output m3_output hyper1 hyper2] in *. rewrite dec64_dec64 in Et1.
      destruct (IH d1) as (d' & E' & R' & Et1' & Et2' & Em2' & Em3' & Eh1' & Eh2'); [done|lia|lia| |].
      { rewrite Et1. apply Z.mod_pos_bound. lia. }
      exists d'. cbn [trainings]. rewrite E. split; [done|]. split; [done|].
      rewrite Et1', Et2', Em2', Em3', Eh1', Eh2', Et1. split; [|done].
      cbn [length]. rewrite Zminus_mod_idemp_l. f_equal. lia.
  Qed.

  (** The time step of the optimisers does not count the steps: it runs below zero from the first step on,
      and for the policy it does not move. *)
  Theorem ddpg_time_step_refuted ls d d' :
    laws g0 gadd fwd bwd upd mix idle osize -> ready g0 osize d -> 2 <= m2_output d -> 2 <= m3_output d -> t1 d = 1%Z -> t2 d = 1%Z ->
    trainings train ls d = Some d' -> ls <> [] -> (2 * Z.of_nat (length ls) <= 18446744073709551616)%Z ->
    t1 d' = (18446744073709551617 - 2 * Z.of_nat (length ls))%Z /\ t2 d' = 1%Z.
  Proof.
    intros L Hr H2 H3 E1 E2 Ht Hne Hn.
    destruct (ddpg_history ls d L Hr H2 H3) as (d2 & E & _ & T1 & T2 & _); [lia|].
    rewrite Ht in E. simplify_eq. split; [|congruence]. rewrite T1, E1.
    destruct ls as [|x ls]; [done|]. cbn [length] in *. symmetry. apply Z.mod_unique with (q := (-1)%Z); lia.
  Qed.

  (** The bootstrapped value of the next state is not in the targets: the output of the last target network is
      read after the reset.  With a last layer that resets its output to 0 the learned networks are a function
      of the states, actions and rewards alone: whatever the next states, the terminal marks, the discount
      factor and the target networks are. *)
  Theorem ddpg_targets_ignore_the_future_refuted d e d' e' :
    laws g0 gadd fwd bwd upd mix idle osize -> (∀ p, hd 0%R (idle p) = 0%R) ->
    ready g0 osize d -> ready g0 osize e -> 2 <= m2_output d -> 2 <= m3_output d ->
    learned d = learned e -> m2_output d = m2_output e -> m3_output d = m3_output e -> hyper1 d = hyper1 e -> hyper2 d = hyper2 e -> t1 d = t1 e -> t2 d = t2 e ->
    Forall2 (λ s r, st s = st r /\ action s = action r /\ reward s = reward r) (slots d) (slots e) ->
    train d = Some d' -> train e = Some e' -> learned d' = learned e'.
  Proof.
    intros L Hi Hd He H2 H3 El E2 E3 Eh1 Eh2 Et1 Et2 Hs Td Te.
    destruct (ddpg_step_spec d L Hd H2 H3) as (x & Ex & _ & Lx & _). assert (x = d') as -> by congruence.
    destruct (ddpg_step_spec e L He) as (y & Ey & _ & Ly & _); [lia|lia|]. assert (y = e') as -> by congruence.
    rewrite Lx, Ly, El, E2, Eh1, Eh2, Et1, Et2.
    assert (HB : ∀ (Y : Type) (f : trans * R -> Y), (∀ s1 n1 a1 r1 t1 y1 s2 n2 a2 r2 t2 y2, s1 = s2 -> a1 = a2 -> r1 = r2 -> y1 = y2 -> f (mkTrans s1 n1 a1 r1 t1, y1) = f (mkTrans s2 n2 a2 r2 t2, y2)) ->
      f <$> batch_of idle d = f <$> batch_of idle e).
    { intros Y f Hf. unfold batch_of. rewrite <- !list_fmap_compose. induction Hs as [|s r l k (A & B & C) _ IH]; [done|].
      cbn. f_equal; [|exact IH]. apply Hf; [done|done|done|]. unfold target_with, idle_value. cbn. rewrite !Hi, C. ring. }
    unfold learn. destruct (learned e) as [[[p1 p2] p3] p4].
    rewrite !(HB _ (λ ty, grad4 fwd bwd lossd p2 p3 p4 ty.1 ty.2)) by (intros; subst; done).
    rewrite !(HB _ (λ ty, grad3 fwd bwd lossd _ p2 p3 p4 ty.1 ty.2)) by (intros; subst; done).
    rewrite !(HB _ (λ ty, grad2 fwd bwd lossd _ p2 p3 p4 ty.1 ty.2)) by (intros; subst; done).
    do 5 f_equal. apply HB. intros; subst; done.
  Qed.

  (** The hyper parameters with number 2, documented as those of the critic, are used for the policy only: the
      critic that comes out of a step does not depend on them (and the policy gets nothing else). *)
  Theorem ddpg_hyper_parameters_swapped_refuted d h d' e' :
    laws g0 gadd fwd bwd upd mix idle osize -> ready g0 osize d -> 2 <= m2_output d -> 2 <= m3_output d ->
    train d = Some d' -> train (set_hyper2 h d) = Some e' ->
    par (nm2 e') = par (nm2 d') /\ par (nm3 e') = par (nm3 d') /\ par (nm4 e') = par (nm4 d') /\
    ∃ g, par (nm1 d') = upd (hyper2 d) (t2 d) (par (nm1 d)) g /\ par (nm1 e') = upd h (t2 d) (par (nm1 d)) g.
  Proof.
    intros L Hd H2 H3 Td Te.
    destruct (ddpg_step_spec d L Hd H2 H3) as (x & Ex & _ & Lx & _). assert (x = d') as -> by congruence.
    destruct (ddpg_step_spec (set_hyper2 h d) L Hd H2 H3) as (y & Ey & _ & Ly & _). assert (y = e') as -> by congruence.
    unfold learned, learn in Lx, Ly. cbn in Lx, Ly.
    change (batch_of idle (set_hyper2 h d)) with (batch_of idle d) in *.
    injection Lx as X1 X2 X3 X4. injection Ly as Y1 Y2 Y3 Y4.
    rewrite X2, X3, X4, Y2, Y3, Y4. repeat split. eexists. split; [exact X1|exact Y1].
  Qed.

  (** With one feature for the state or for the action the joint features do not fit their buffer. *)
  Theorem ddpg_one_feature_refuted d :
    m2_output d = 1 \/ m3_output d = 1 -> slots d <> [] -> train d = None.
  Proof. intros Hm Hs. apply train_overflow; [nia|done]. Qed.
End props.

(** ** a concrete agent: linear networks with one weight *)
Definition xp : Type := nat * R.
Definition xfwd (p : xp) (x : vec) : vec := replicate (fst p) (snd p * suml x)%R.
Definition xbwd (p : xp) (x e : vec) : R * vec := ((suml e * suml x)%R, replicate (length x) (snd p * suml e)%R).
Definition xlossd (p : xp) (o y : vec) : vec := [(hd 0 o - hd 0 y)%R].
Definition xupd (h : R) (t : Z) (p : xp) (g : R) : xp := (fst p, (snd p - h * g)%R).
Definition xmix (tau : R) (p q : xp) : xp := (fst q, (tau * snd p + (1 - tau) * snd q)%R).
Definition xidle (p : xp) : vec := replicate (fst p) 0%R.
Notation xtrain := (ddpg_train 0%R Rplus xfwd xbwd xlossd xupd xmix xidle).
Definition xnet (n : nat) : net := mkNet (n, 1%R) 0%R None (@nil R).
Definition xd : ddpg := init_ddpg (xnet 1) (xnet 2) (xnet 2) (xnet 1) [([1%R], [1%R], [1%R], 0%R, 0%Z)] 2 2 1%R 1%R 1%R 1%R.

Example x_laws : laws 0%R Rplus xfwd xbwd xupd xmix xidle fst.
Proof. split; intros; cbn; unfold xfwd, xidle; rewrite ?replicate_length; try done. apply Rplus_0_l. Qed.
Example x_ready : ready 0%R fst xd.
Proof. by apply ddpg_init_ready. Qed.
Example x_idle p : hd 0%R (xidle p) = 0%R.
Proof. destruct p as [[|n] w]; done. Qed.
Example x_history : ∃ d', trainings xtrain [trans_of <$> slots xd; trans_of <$> slots xd; trans_of <$> slots xd] xd = Some d' /\ t1 d' = 18446744073709551611%Z /\ t2 d' = 1%Z.
Proof.
  destruct (ddpg_history 0%R Rplus xfwd xbwd xlossd xupd xmix xidle fst [trans_of <$> slots xd; trans_of <$> slots xd; trans_of <$> slots xd] xd x_laws x_ready) as (d' & E & _ & T & T2 & _); [cbn; lia..|].
  exists d'. rewrite T, T2. done.
Qed.

(** The step is not the documented one: there is an agent for which the critic learned with the bootstrapped
    targets differs from the one the program learns. *)
Theorem ddpg_step_differs_from_documented_refuted :
  ∃ d', xtrain xd = Some d' /\
    (∀ s, s ∈ slots xd -> next_value xfwd (par (tn1 s)) (par (tn2 s)) (par (tn3 s)) (par (tn4 s)) (trans_of s) = 4%R) /\
    (learned d').2 = (1, (1 - 16)%R) /\
    (learn 0%R Rplus xfwd xbwd xlossd xupd 2 (hyper1 xd) (hyper2 xd) 1 0 (-1) 1
      ((λ s, (trans_of s, target_with (gamma xd) (next_value xfwd (par (tn1 s)) (par (tn2 s)) (par (tn3 s)) (par (tn4 s)) (trans_of s)) (trans_of s))) <$> slots xd) (learned xd)).2 = (1, 1%R).
Proof.
  destruct (ddpg_step_spec 0%R Rplus xfwd xbwd xlossd xupd xmix xidle fst xd x_laws x_ready) as (d' & E & _ & EL & _); [cbn; lia..|].
  exists d'. split; [done|]. split; [|split].
  - intros s Hs. apply elem_of_list_singleton in Hs as ->. unfold next_value, qvalue, joint, xfwd. cbn. lra.
  - rewrite EL. unfold learn, gsum, grad4, qvalue, joint, batch_of, target_with, idle_value, xfwd, xbwd, xlossd, xupd, xidle. cbn. f_equal. lra.
  - unfold learn, gsum, grad4, next_value, qvalue, joint, target_with, xfwd, xbwd, xlossd, xupd. cbn. f_equal. lra.
Qed.

(** the hypotheses of the overflow are met as well *)
Example x_overflow : xtrain (init_ddpg (xnet 1) (xnet 1) (xnet 2) (xnet 1) [([1%R], [1%R], [1%R], 0%R, 0%Z)] 1 2 1%R 1%R 1%R 1%R) = None.
Proof. apply ddpg_one_feature_refuted; [by left|done]. Qed.

Print Assumptions ddpg_step_spec.
Print Assumptions ddpg_init_ready.
Print Assumptions ddpg_history.
Print Assumptions ddpg_time_step_refuted.
Print Assumptions ddpg_targets_ignore_the_future_refuted.
Print Assumptions ddpg_hyper_parameters_swapped_refuted.
Print Assumptions ddpg_one_feature_refuted.
Print Assumptions ddpg_step_differs_from_documented_refuted.
