From Verif Require Import Base BaseLemmas RealSum Ddpg_Model Ddpg_Spec.
From Coq Require Import Reals Lia.
Open Scope nat_scope.

Section proofs.
  Context {P G H : Type} (g0 : G) (gadd : G -> G -> G).
  Context (fwd : P -> vec -> vec) (bwd : P -> vec -> vec -> G * vec) (lossd : P -> vec -> vec -> vec).
  Context (upd : H -> Z -> P -> G -> P) (mix : R -> P -> P -> P) (idle : P -> vec) (osize : P -> nat).
  Context (L : laws g0 gadd fwd bwd upd mix idle osize).
  Notation ready := (ready g0 osize). Notation slot_ready := (slot_ready g0 osize). Notation idle_value := (idle_value idle). Notation batch_of := (batch_of idle).
  Notation train := (ddpg_train g0 gadd fwd bwd lossd upd mix idle).
  Notation net := (@net P G). Notation slot := (@slot P G). Notation ddpg := (@ddpg P G H).

  Lemma fits m2o m3o : 2 <= m2o -> 2 <= m3o -> m2o + m3o <= m2o * m3o.
  Proof. intros. nia. Qed.

  Lemma cat_ok m2o m3o o2 o3 : 2 <= m2o -> 2 <= m3o -> length o2 = m2o -> length o3 = m3o -> cat m2o m3o o2 o3 = Some (o2 ++ o3).
  Proof.
    intros H2 H3 L2 L3. unfold cat. rewrite decide_True by (pose proof (fits _ _ H2 H3); lia).
    by rewrite !take_ge by lia.
  Qed.

  Lemma slice_ok m2o m3o e : length e = m2o + m3o -> slice m2o m3o e = Some (drop m2o e).
  Proof. intros Le. unfold slice. rewrite decide_True by lia. by rewrite take_ge by (rewrite drop_length; lia). Qed.

  Lemma bp_ff (n : net) x e : bp gadd bwd (ff fwd n x) x e = Some (mkNet (par n) (gadd (grad n) (fst (bwd (par n) x e))) (Some x) (fwd (par n) x), snd (bwd (par n) x e)).
  Proof. unfold bp. cbn. by rewrite decide_True. Qed.

  Lemma critic_phase_ok p1 p2 p3 p4 m2o m3o gam s :
    2 <= m2o -> 2 <= m3o -> osize p2 = m2o -> osize p3 = m3o -> slot_ready p1 p2 p3 p4 m2o m3o s ->
    ∃ s', critic_phase g0 gadd fwd bwd lossd idle m2o m3o gam s = Some s' /\
      trans_of s' = trans_of s /\ targets s' = targets s /\ bn1 s' = bn1 s /\
      grad (bn2 s') = grad2 fwd bwd lossd m2o p2 p3 p4 (trans_of s) (target_with gam (idle_value s) (trans_of s)) /\
      grad (bn3 s') = grad3 fwd bwd lossd m2o p2 p3 p4 (trans_of s) (target_with gam (idle_value s) (trans_of s)) /\
      grad (bn4 s') = grad4 fwd bwd lossd p2 p3 p4 (trans_of s) (target_with gam (idle_value s) (trans_of s)).
  Proof using L.
    intros H2 H3 O2 O3 (E1 & E2 & E3 & E4 & G1 & G2 & G3 & G4 & T2 & T3 & T4).
    destruct L as [Lu Lf Lb Li _ _].
    unfold critic_phase. cbn [ff out]. rewrite E2, E3.
    rewrite !cat_ok by (rewrite ?Lf; done). cbn [mbind option_bind rst out par ff].
    destruct (idle (par (tn4 s))) as [|v vs] eqn:Hi; [pose proof (Li (par (tn4 s))) as Hl; rewrite Hi in Hl; cbn in Hl; lia|].
    cbn [rd lookup list_lookup]. change (rd (v :: vs) 0) with (Some v). cbn [mbind option_bind].
    rewrite bp_ff. cbn [mbind option_bind snd fst].
    rewrite slice_ok by (rewrite Lb, app_length, !Lf; lia). cbn [mbind option_bind].
    rewrite !bp_ff. cbn [mbind option_bind snd fst].
    eexists. split; [done|]. cbn. rewrite E2, E3, E4, G2, G3, G4, !Lu.
    unfold idle_value. rewrite Hi. cbn. repeat split; try done; cbn.
  Qed.

  Lemma policy_phase_ok p1 p2 p3 p4 m2o m3o s :
    2 <= m2o -> 2 <= m3o -> osize p2 = m2o -> osize p3 = m3o -> slot_ready p1 p2 p3 p4 m2o m3o s ->
    ∃ s', policy_phase gadd fwd bwd m2o m3o s = Some s' /\
      trans_of s' = trans_of s /\ targets s' = targets s /\
      par (bn1 s') = p1 /\ par (bn2 s') = p2 /\ par (bn3 s') = p3 /\ par (bn4 s') = p4 /\
      grad (bn1 s') = grad1 fwd bwd m2o p1 p2 p3 p4 (trans_of s).
  Proof using L.
    intros H2 H3 O2 O3 (E1 & E2 & E3 & E4 & G1 & G2 & G3 & G4 & T2 & T3 & T4).
    destruct L as [Lu Lf Lb Li _ _].
    unfold policy_phase. cbn [ff out]. rewrite E1, E2, E3.
    rewrite cat_ok by (rewrite ?Lf; done). cbn [mbind option_bind].
    rewrite bp_ff. cbn [mbind option_bind snd fst].
    rewrite slice_ok by (rewrite Lb, app_length, !Lf; lia). cbn [mbind option_bind].
    rewrite !bp_ff. cbn [mbind option_bind snd fst].
    rewrite !bp_ff. cbn [mbind option_bind snd fst].
    eexists. split; [done|]. cbn. rewrite E1, E3, E4, G1, !Lu. done.
  Qed.

  Lemma mapM_ok {A B} (f : A -> option B) (Q : A -> B -> Prop) (PP : A -> Prop) l :
    (∀ a, PP a -> ∃ b, f a = Some b /\ Q a b) -> Forall PP l -> ∃ k, mapM f l = Some k /\ Forall2 Q l k.
  Proof.
    intros Hf. induction 1 as [|a l Ha Hl IH]; [by exists []|].
    destruct (Hf a Ha) as (b & Hb & Qb). destruct IH as (k & Hk & Qk).
    exists (b :: k). cbn. rewrite Hb. cbn. rewrite Hk. split; [done|by constructor].
  Qed.

  Lemma Forall2_fmap_eq {A B C} (f : A -> C) (g : B -> C) (Q : A -> B -> Prop) l k :
    (∀ a b, Q a b -> g b = f a) -> Forall2 Q l k -> g <$> k = f <$> l.
  Proof. intros Hq. induction 1 as [|a b l k Hab _ IH]; [done|]. cbn. f_equal; [by apply Hq|done]. Qed.

  Lemma train_ok d : ready d -> 2 <= m2_output d -> 2 <= m3_output d ->
    ∃ d', train d = Some d' /\ ready d' /\
      learned d' = learn g0 gadd fwd bwd lossd upd (m2_output d) (hyper1 d) (hyper2 d) (t1 d) (dec64 (t1 d)) (dec64 (dec64 (t1 d))) (t2 d) (batch_of d) (learned d) /\
      Forall2 (λ s s', targets s' = soft mix (tau d) (learned d') (targets s) /\ trans_of s' = trans_of s) (slots d) (slots d') /\
      t1 d' = dec64 (dec64 (t1 d)) /\ t2 d' = t2 d /\ m2_output d' = m2_output d /\ m3_output d' = m3_output d /\
      gamma d' = gamma d /\ tau d' = tau d /\ hyper1 d' = hyper1 d /\ hyper2 d' = hyper2 d.
  Proof using L.
    intros (Z1 & Z2 & Z3 & Z4 & O2 & O3 & Hs) H2 H3.
    set (m2o := m2_output d) in *. set (m3o := m3_output d) in *.
    destruct (mapM_ok _ (λ s s', slot_ready (par (nm1 d)) (par (nm2 d)) (par (nm3 d)) (par (nm4 d)) m2o m3o s /\ trans_of s' = trans_of s /\ targets s' = targets s /\ bn1 s' = bn1 s /\
      grad (bn2 s') = grad2 fwd bwd lossd m2o (par (nm2 d)) (par (nm3 d)) (par (nm4 d)) (trans_of s) (target_with (gamma d) (idle_value s) (trans_of s)) /\
      grad (bn3 s') = grad3 fwd bwd lossd m2o (par (nm2 d)) (par (nm3 d)) (par (nm4 d)) (trans_of s) (target_with (gamma d) (idle_value s) (trans_of s)) /\
      grad (bn4 s') = grad4 fwd bwd lossd (par (nm2 d)) (par (nm3 d)) (par (nm4 d)) (trans_of s) (target_with (gamma d) (idle_value s) (trans_of s)))
      _ (slots d) (λ s Hr, match critic_phase_ok _ _ _ _ m2o m3o (gamma d) s H2 H3 O2 O3 Hr with ex_intro _ s' (conj A B) => ex_intro _ s' (conj A (conj Hr B)) end) Hs) as (l1 & Hl1 & Q1).
    set (pp4 := upd (hyper1 d) (t1 d) (par (nm4 d)) (gsum g0 gadd ((λ ty, grad4 fwd bwd lossd (par (nm2 d)) (par (nm3 d)) (par (nm4 d)) (fst ty) (snd ty)) <$> batch_of d))).
    set (pp3 := upd (hyper1 d) (dec64 (t1 d)) (par (nm3 d)) (gsum g0 gadd ((λ ty, grad3 fwd bwd lossd m2o (par (nm2 d)) (par (nm3 d)) (par (nm4 d)) (fst ty) (snd ty)) <$> batch_of d))).
    set (pp2 := upd (hyper1 d) (dec64 (dec64 (t1 d))) (par (nm2 d)) (gsum g0 gadd ((λ ty, grad2 fwd bwd lossd m2o (par (nm2 d)) (par (nm3 d)) (par (nm4 d)) (fst ty) (snd ty)) <$> batch_of d))).
    set (pp1 := upd (hyper2 d) (t2 d) (par (nm1 d)) (gsum g0 gadd ((λ ty, grad1 fwd bwd m2o (par (nm1 d)) pp2 pp3 pp4 (fst ty)) <$> batch_of d))).
    assert (F4 : fold_left gadd (grad <$> (bn4 <$> l1)) g0 = gsum g0 gadd ((λ ty, grad4 fwd bwd lossd (par (nm2 d)) (par (nm3 d)) (par (nm4 d)) (fst ty) (snd ty)) <$> batch_of d)).
    { unfold gsum, batch_of. f_equal. rewrite <- !list_fmap_compose. eapply Forall2_fmap_eq; [|exact Q1]. intros a b (_ & _ & _ & _ & _ & _ & E). exact E. }
    assert (F3 : fold_left gadd (grad <$> (bn3 <$> l1)) g0 = gsum g0 gadd ((λ ty, grad3 fwd bwd lossd m2o (par (nm2 d)) (par (nm3 d)) (par (nm4 d)) (fst ty) (snd ty)) <$> batch_of d)).
    { unfold gsum, batch_of. f_equal. rewrite <- !list_fmap_compose. eapply Forall2_fmap_eq; [|exact Q1]. intros a b (_ & _ & _ & _ & _ & E & _). exact E. }
    assert (F2 : fold_left gadd (grad <$> (bn2 <$> l1)) g0 = gsum g0 gadd ((λ ty, grad2 fwd bwd lossd m2o (par (nm2 d)) (par (nm3 d)) (par (nm4 d)) (fst ty) (snd ty)) <$> batch_of d)).
    { unfold gsum, batch_of. f_equal. rewrite <- !list_fmap_compose. eapply Forall2_fmap_eq; [|exact Q1]. intros a b (_ & _ & _ & _ & E & _ & _). exact E. }
    set (n4 := rst g0 idle (update upd (hyper1 d) (t1 d) (sum_grads gadd (nm4 d) (bn4 <$> l1)))).
    set (n3 := rst g0 idle (update upd (hyper1 d) (dec64 (t1 d)) (sum_grads gadd (nm3 d) (bn3 <$> l1)))).
    set (n2 := rst g0 idle (update upd (hyper1 d) (dec64 (dec64 (t1 d))) (sum_grads gadd (nm2 d) (bn2 <$> l1)))).
    assert (P4 : par n4 = pp4) by (unfold n4, pp4; cbn; by rewrite Z4, F4).
    assert (P3 : par n3 = pp3) by (unfold n3, pp3; cbn; by rewrite Z3, F3).
    assert (P2 : par n2 = pp2) by (unfold n2, pp2; cbn; by rewrite Z2, F2).
    assert (O2' : osize pp2 = m2o) by (unfold pp2; rewrite (l_upd _ _ _ _ _ _ _ _ L); done).
    assert (O3' : osize pp3 = m3o) by (unfold pp3; rewrite (l_upd _ _ _ _ _ _ _ _ L); done).
    assert (R2 : Forall (slot_ready (par (nm1 d)) pp2 pp3 pp4 m2o m3o) (sync_critic g0 idle n2 n3 n4 <$> l1)).
    { apply list.Forall_forall. intros s Hin. apply elem_of_list_fmap in Hin as (s1 & -> & Hin).
      apply elem_of_list_lookup in Hin as (i & Hi). destruct (Forall2_lookup_r _ _ _ _ _ Q1 Hi) as (s0 & Hi0 & Hr & Ht & Htg & Hb1 & _).
      destruct Hr as (E1 & E2 & E3 & E4 & G1 & G2 & G3 & G4 & T2 & T3 & T4).
      assert (Et : par (tn2 s1) = par (tn2 s0) /\ par (tn3 s1) = par (tn3 s0) /\ par (tn4 s1) = par (tn4 s0)) by (unfold targets in Htg; by simplify_eq).
      destruct Et as (Et2 & Et3 & Et4).
      unfold slot_ready, sync_critic. cbn [bn1 bn2 bn3 bn4 tn2 tn3 tn4 paste par grad].
      rewrite Hb1, P2, P3, P4, Et2, Et3, Et4. repeat split; done. }
    destruct (mapM_ok _ (λ s s', slot_ready (par (nm1 d)) pp2 pp3 pp4 m2o m3o s /\ trans_of s' = trans_of s /\ targets s' = targets s /\
      par (bn1 s') = par (nm1 d) /\ par (bn2 s') = pp2 /\ par (bn3 s') = pp3 /\ par (bn4 s') = pp4 /\
      grad (bn1 s') = grad1 fwd bwd m2o (par (nm1 d)) pp2 pp3 pp4 (trans_of s))
      _ _ (λ s Hr, match policy_phase_ok _ _ _ _ m2o m3o s H2 H3 O2' O3' Hr with ex_intro _ s' (conj A B) => ex_intro _ s' (conj A (conj Hr B)) end) R2) as (l3 & Hl3 & Q3).
    set (n1 := rst g0 idle (update upd (hyper2 d) (t2 d) (sum_grads gadd (nm1 d) (bn1 <$> l3)))).
    assert (F1 : fold_left gadd (grad <$> (bn1 <$> l3)) g0 = gsum g0 gadd ((λ ty, grad1 fwd bwd m2o (par (nm1 d)) pp2 pp3 pp4 (fst ty)) <$> batch_of d)).
    { unfold gsum, batch_of. f_equal. rewrite <- !list_fmap_compose.
      trans ((λ s, grad1 fwd bwd m2o (par (nm1 d)) pp2 pp3 pp4 (trans_of s)) <$> (sync_critic g0 idle n2 n3 n4 <$> l1)).
      { eapply Forall2_fmap_eq; [|exact Q3]. intros a b (_ & _ & _ & _ & _ & _ & _ & E). exact E. }
      rewrite <- list_fmap_compose. eapply Forall2_fmap_eq; [|exact Q1]. intros a b (_ & E & _). cbn. by rewrite <- E. }
    assert (P1 : par n1 = pp1) by (unfold n1, pp1; cbn; by rewrite Z1, F1).
    eexists. split.
    { unfold ddpg_train. fold m2o m3o. rewrite Hl1. cbn [mbind option_bind]. fold n2 n3 n4. rewrite Hl3. cbn [mbind option_bind]. fold n1. reflexivity. }
    assert (HT : Forall2 (λ s s', targets s' = soft mix (tau d) (pp1, pp2, pp3, pp4) (targets s) /\ trans_of s' = trans_of s) (slots d) (finish g0 mix idle (tau d) n1 n2 n3 n4 <$> l3)).
    { apply Forall2_fmap_r. eapply Forall2_transitive with (P := λ s s', targets s' = targets s /\ trans_of s' = trans_of s) (Q := λ s s', targets s' = targets s /\ trans_of s' = trans_of s); cycle 1.
      - eapply Forall2_impl; [exact Q1|]. intros a b (_ & E & E' & _). exact (conj E' E).
      - apply Forall2_fmap_l in Q3. eapply Forall2_impl; [exact Q3|]. cbn. intros a b (_ & E & E' & _). exact (conj E' E).
      - cbv beta. intros x y z (A & B) (C & D). rewrite <- A, <- B, <- D, <- C. unfold compose; cbv beta; unfold soft, targets, trans_of, finish. cbn [tn1 tn2 tn3 tn4 st st2 action reward terminal slow_paste par]. rewrite P1, P2, P3, P4. done. }
    split; [|split; [|split]].
    - unfold ready. cbn [nm1 nm2 nm3 nm4 m2_output m3_output slots]. repeat split; try done; [by rewrite P2|by rewrite P3|].
      apply list.Forall_forall. intros s Hin. apply elem_of_list_fmap in Hin as (s1 & -> & Hin).
      apply elem_of_list_lookup in Hin as (i & Hi). destruct (Forall2_lookup_r _ _ _ _ _ Q3 Hi) as (s0 & Hi0 & Hr & Ht & Htg & Eb1 & Eb2 & Eb3 & Eb4 & _).
      destruct Hr as (_ & _ & _ & _ & _ & _ & _ & _ & T2 & T3 & T4).
      assert (Et : par (tn2 s1) = par (tn2 s0) /\ par (tn3 s1) = par (tn3 s0) /\ par (tn4 s1) = par (tn4 s0)) by (unfold targets in Htg; by simplify_eq).
      destruct Et as (Et2 & Et3 & Et4).
      unfold slot_ready, finish. cbn [bn1 bn2 bn3 bn4 tn2 tn3 tn4 paste slow_paste par grad rst].
      rewrite P2, P3, P4, Et2, Et3, Et4, Eb2, Eb3, Eb4, !(l_mix _ _ _ _ _ _ _ _ L). repeat split; done.
    - unfold learned. cbn [nm1 nm2 nm3 nm4]. rewrite P1, P2, P3, P4. reflexivity.
    - unfold learned. cbn [nm1 nm2 nm3 nm4 slots]. by rewrite P1, P2, P3, P4.
    - done.
  Qed.

  Lemma train_overflow d : m2_output d + m3_output d > m2_output d * m3_output d -> slots d <> [] -> train d = None.
  Proof.
    intros Hlt Hne. unfold ddpg_train. destruct (slots d) as [|s l]; [done|]. cbn [mapM].
    assert (Hc : ∀ o2 o3, cat (m2_output d) (m3_output d) o2 o3 = None) by (intros; unfold cat; rewrite decide_False by lia; done).
    assert (Hp : critic_phase g0 gadd fwd bwd lossd idle (m2_output d) (m3_output d) (gamma d) s = None) by (unfold critic_phase; cbn [ff out]; rewrite !Hc; reflexivity).
    cbn. rewrite Hp. done.
  Qed.
End proofs.
