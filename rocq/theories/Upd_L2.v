From Verif Require Import NumLib NumLib2 Upd_Model Upd_Spec Upd_Proofs Upd_Layers.
Open Scope nat_scope.

Section l2.
Context {St : Type} (sz gsz : name -> nat).
(** sizes needed by the penalty: gradients [gsz], values [sz] *)
Definition lsized (s : store St) : Prop := forall nm, length (val s nm) = sz nm /\ length (grad s nm) = gsz nm.

(** f succeeds and adds [D (val s) nm i] to every gradient entry *)
Definition Pen (f : store St -> option (store St)) (D : (name -> list R) -> name -> nat -> R) : Prop :=
  forall s, lsized s -> exists s', f s = Some s' /\ lsized s' /\ val s' = val s /\ buf s' = buf s /\
    forall nm i d, grad s nm !! i = Some d -> grad s' nm !! i = Some (d + D (val s) nm i)%R.

Lemma Pen_id : Pen Some (fun _ _ _ => 0%R).
Proof. intros s Hs. exists s. split_and!; try done. intros nm i d Hd. rewrite Hd. f_equal. lra. Qed.
Lemma Pen_ext f D D' : Pen f D -> (forall v nm i, i < gsz nm -> (forall n, length (v n) = sz n) -> D v nm i = D' v nm i) -> Pen f D'.
Proof.
  intros H E s Hs. destruct (H s Hs) as (s' & E1 & L & V & B & G). exists s'. split_and!; try done. intros nm i d Hd. rewrite <- E; [by apply G| |].
  - apply lookup_lt_Some in Hd. destruct (Hs nm). lia.
  - intros n. apply Hs.
Qed.
Lemma Pen_seq f g Df Dg : Pen f Df -> Pen g Dg -> Pen (fun s => s ← f s; g s) (fun v nm i => Df v nm i + Dg v nm i)%R.
Proof.
  intros Hf Hg s Hs. destruct (Hf s Hs) as (s1 & E1 & L1 & V1 & B1 & G1). destruct (Hg s1 L1) as (s2 & E2 & L2 & V2 & B2 & G2).
  exists s2. rewrite E1. split_and!; try done; try congruence. intros nm i d Hd. apply G1 in Hd. apply G2 in Hd. rewrite Hd, V1. f_equal. lra.
Qed.
Lemma Pen_loop n body D : (forall k, k < n -> Pen (body k) (D k)) -> Pen (for_loop n 0 body) (fun v nm i => sumn n (fun k => D k v nm i)).
Proof.
  induction n as [|n IH]; intros H; cbn [sumn].
  - intros s Hs. exists s. split_and!; try done. intros nm i d Hd. rewrite Hd. f_equal. lra.
  - assert (Pen (fun s => s ← for_loop n 0 body s; body n s) (fun v nm i => sumn n (fun k => D k v nm i) + D n v nm i)%R) as E.
    { apply Pen_seq; [apply IH; intros; apply H; lia|apply H; lia]. }
    intros s Hs. destruct (E s Hs) as (s' & E' & R). exists s'. split; [|done]. rewrite for_loop_S_r. done.
Qed.
Lemma Pen_eq f g D : (forall s, f s = g s) -> Pen g D -> Pen f D.
Proof. intros E H s Hs. rewrite E. by apply H. Qed.
Lemma Pen_ridge lambda n nm i wn k : i < gsz nm -> k < sz wn ->
  Pen (ridge lambda n nm i wn k) (fun v nm' i' => INR (ind (nm' = nm /\ i' = i)) * (lambda / INR n * el (v wn) k))%R.
Proof.
  intros Hi Hk s Hs. destruct (lookup_lt_is_Some_2 (grad s nm) i) as [d Hd]; [destruct (Hs nm); lia|].
  unfold ridge. unfold rd. rewrite Hd. cbn [mbind option_bind]. rewrite (lookup_el (val s wn) k) by (destruct (Hs wn); lia). cbn [mbind option_bind].
  eexists. split; [done|]. cbn [val buf grad]. split_and!; try done.
  - intros nm'. cbn [val grad]. unfold fset. destruct (decide (nm' = nm)) as [->|]; [rewrite insert_length|]; apply Hs.
  - intros nm' i' d' Hd'. unfold fset, ind. destruct (decide (nm' = nm)) as [->|N].
    + destruct (decide (i' = i)) as [->|Ni].
      * rewrite decide_True by done. rewrite list_lookup_insert by (by eapply lookup_lt_Some). simplify_eq. f_equal. cbn. lra.
      * rewrite decide_False by (intros [_ ?]; done). rewrite list_lookup_insert_ne by done. rewrite Hd'. f_equal. cbn. lra.
    + rewrite decide_False by (intros [? _]; done). rewrite Hd'. f_equal. cbn. lra.
Qed.
End l2.

Section l2own.
Context {St : Type} (sz gsz : name -> nat) (own : name -> name) (lambda : R) (n : nat).
(** counted version: entry (nm,i) gets c nm i times lambda/n times its own weight *)
Definition PenC (f : store St -> option (store St)) (c : name -> nat -> nat) : Prop :=
  Pen sz gsz f (fun v nm i => INR (c nm i) * (lambda / INR n * el (v (own nm)) i))%R.
Lemma PenC_ridge nm i : i < gsz nm -> i < sz (own nm) -> PenC (ridge lambda n nm i (own nm) i) (fun nm' i' => ind (nm' = nm /\ i' = i)).
Proof.
  intros H1 H2. eapply Pen_ext; [apply Pen_ridge; done|]. intros v nm' i' _ _. cbn beta. unfold ind. destruct decide as [[-> ->]|]; [done|]. cbn. lra.
Qed.
Lemma PenC_loop m body c : (forall k, k < m -> PenC (body k) (c k)) -> PenC (for_loop m 0 body) (fun nm i => nsum m (fun k => c k nm i)).
Proof.
  intros H. eapply Pen_ext; [apply (Pen_loop sz gsz m body (fun k v nm i => INR (c k nm i) * (lambda / INR n * el (v (own nm)) i))%R); exact H|]. intros v nm i _ _. cbn beta. generalize (lambda / INR n * el (v (own nm)) i)%R. intros x. clear H.
  induction m as [|m IH]; cbn [sumn nsum]; [cbn; lra|]. rewrite IH, plus_INR. lra.
Qed.
Lemma PenC_seq f g cf cg : PenC f cf -> PenC g cg -> PenC (fun s => s ← f s; g s) (fun nm i => cf nm i + cg nm i).
Proof. intros Hf Hg. eapply Pen_ext; [apply Pen_seq; [exact Hf|exact Hg]|]. intros v nm i _ _. cbn beta. rewrite plus_INR. lra. Qed.
Lemma PenC_id : PenC Some (fun _ _ => 0).
Proof. eapply Pen_ext; [apply Pen_id|]. intros. cbn. lra. Qed.
Lemma PenC_ext f c c' : PenC f c -> (forall nm i, i < gsz nm -> c nm i = c' nm i) -> PenC f c'.
Proof. intros H E. eapply Pen_ext; [exact H|]. intros v nm i Hi _. cbn beta. by rewrite E. Qed.
Lemma PenC_penalized f (pen : name -> bool) s : PenC f (fun nm _ => if pen nm then 1 else 0) -> lsized sz gsz s ->
  exists s', f s = Some s' /\ penalized lambda n pen own s s'.
Proof.
  intros H Hs. destruct (H s Hs) as (s' & E & _ & V & B & G). exists s'. split; [done|]. split; [done|]. split; [done|]. intros nm i d Hd.
  rewrite (G _ _ _ Hd). f_equal. destruct (pen nm); cbn; lra.
Qed.
End l2own.

Lemma flat_count a b (nm0 nm : name) i : (nm = nm0 -> i < a * b) ->
  nsum a (fun j => nsum b (fun k => ind (nm = nm0 /\ i = j * b + k))) = if bool_decide (nm = nm0) then 1 else 0.
Proof.
  intros H. destruct (decide (nm = nm0)) as [E|N].
  - rewrite bool_decide_true by done. rewrite <- (ind_yes _ (H E)). rewrite <- nsum_flat. apply nsum_ext; intros; apply nsum_ext; intros. apply ind_iff. tauto.
  - rewrite bool_decide_false by done. apply nsum_0; intros; apply nsum_0; intros. apply ind_no. tauto.
Qed.
Lemma line_count a (nm0 nm : name) i : (nm = nm0 -> i < a) -> nsum a (fun k => ind (nm = nm0 /\ i = k)) = if bool_decide (nm = nm0) then 1 else 0.
Proof.
  intros H. destruct (decide (nm = nm0)) as [E|N].
  - rewrite bool_decide_true by done. rewrite <- (ind_yes _ (H E)). rewrite <- nsum_ind. apply nsum_ext; intros. apply ind_iff. tauto.
  - rewrite bool_decide_false by done. apply nsum_0; intros. apply ind_no. tauto.
Qed.
Lemma flat3_count a b c (nm0 nm : name) i : (nm = nm0 -> i < a * b * c) ->
  nsum a (fun u => nsum b (fun z => nsum c (fun w => ind (nm = nm0 /\ i = u * b * c + z * c + w)))) = if bool_decide (nm = nm0) then 1 else 0.
Proof.
  intros H. destruct (decide (nm = nm0)) as [E|N].
  - rewrite bool_decide_true by done. rewrite <- (ind_yes _ (H E)). rewrite <- nsum_flat3. apply nsum_ext; intros; apply nsum_ext; intros; apply nsum_ext; intros. apply ind_iff. tauto.
  - rewrite bool_decide_false by done. apply nsum_0; intros; apply nsum_0; intros; apply nsum_0; intros. apply ind_no. tauto.
Qed.

Section layers.
Context {St : Type} (lambda : R) (n : nat).
Lemma l2_fcl sz gsz f : sz Weights = fl_out f * fl_in f -> (fl_mode f = GRADIENT_DESCENT -> gsz Weights = fl_out f * fl_in f) -> (fl_mode f = EDGE_POPUP -> gsz Scores = fl_out f * fl_in f) ->
  PenC (St := St) sz gsz weights_of lambda n (add_l2_fcl lambda n f) (fun nm _ => if fcl_penalty f nm then 1 else 0).
Proof.
  intros Zw Zg Zs. unfold add_l2_fcl. destruct (decide (fl_mode f = GRADIENT_DESCENT)) as [C|C].
  - specialize (Zg C). eapply PenC_ext.
    + apply PenC_loop with (c := fun j nm i => nsum (fl_in f) (fun k => ind (nm = Weights /\ i = j * fl_in f + k))). intros j Hj.
      apply PenC_loop with (c := fun k nm i => ind (nm = Weights /\ i = j * fl_in f + k)). intros k Hk.
      apply (PenC_ridge sz gsz weights_of lambda n Weights); cbn; rewrite ?Zw, ?Zg; nia.
    + intros nm i Hi. cbn beta. rewrite flat_count by (intros ->; lia). unfold fcl_penalty. rewrite C. by destruct nm.
  - destruct (decide (fl_mode f = EDGE_POPUP)) as [E|E].
    + specialize (Zs E). eapply PenC_ext.
      * apply PenC_loop with (c := fun j nm i => nsum (fl_in f) (fun k => ind (nm = Scores /\ i = j * fl_in f + k))). intros j Hj.
        apply PenC_loop with (c := fun k nm i => ind (nm = Scores /\ i = j * fl_in f + k)). intros k Hk.
        apply (PenC_ridge sz gsz weights_of lambda n Scores); cbn; rewrite ?Zw, ?Zs; nia.
      * intros nm i Hi. cbn beta. rewrite flat_count by (intros ->; lia). unfold fcl_penalty. rewrite E. by destruct nm.
    + eapply PenC_ext; [apply PenC_id|]. intros nm i _. unfold fcl_penalty. destruct nm; try done; by rewrite bool_decide_false by done.
Qed.
Lemma l2_lstm sz gsz l : (forall j, j < 4 -> sz (W j) = ls_out l * ls_in l /\ sz (U j) = ls_out l * ls_out l) ->
  (ls_mode l = GRADIENT_DESCENT -> forall j, j < 4 -> gsz (W j) = ls_out l * ls_in l /\ gsz (U j) = ls_out l * ls_out l) ->
  (ls_mode l = EDGE_POPUP -> forall j, j < 4 -> gsz (WScores j) = ls_out l * ls_in l /\ gsz (UScores j) = ls_out l * ls_out l) ->
  (forall j, 4 <= j -> gsz (W j) = 0 /\ gsz (U j) = 0 /\ gsz (WScores j) = 0 /\ gsz (UScores j) = 0) ->
  PenC (St := St) sz gsz weights_of lambda n (add_l2_lstm lambda n l) (fun nm _ => if lstm_penalty l nm then 1 else 0).
Proof.
  intros Zw Zg Zs Z0. unfold add_l2_lstm.
  assert (forall (F G : nat -> name) nm i, (forall j j', F j = F j' -> j = j') -> (forall j j', G j = G j' -> j = j') -> (forall j j', F j <> G j') ->
     (forall j, nm = F j -> j < 4) -> (forall j, nm = G j -> j < 4) ->
     forall a b, (forall j, nm = F j -> i < a) -> (forall j, nm = G j -> i < b) ->
     nsum 4 (fun j => nsum a (fun k => ind (nm = F j /\ i = k)) + nsum b (fun k => ind (nm = G j /\ i = k)))
     = if decide (nm = F 0 \/ nm = F 1 \/ nm = F 2 \/ nm = F 3 \/ nm = G 0 \/ nm = G 1 \/ nm = G 2 \/ nm = G 3) then 1 else 0) as CNT.
  { intros F G nm i IF IG FG LF LG a b Ha Hb.
    rewrite (nsum_ext 4 _ (fun j => ind (nm = F j) + ind (nm = G j))).
    2:{ intros j Hj. rewrite (line_count a (F j)), (line_count b (G j)) by eauto. unfold ind. do 2 case_bool_decide; repeat destruct decide; tauto. }
    cbn [nsum]. unfold ind.
    repeat match goal with |- context [decide (nm = ?x)] => destruct (decide (nm = x)) as [->|]; [
       repeat (rewrite decide_False by (first [apply FG|apply not_eq_sym, FG|intros X; apply IF in X; lia|intros X; apply IG in X; lia])); rewrite decide_True by tauto; lia|] end.
    rewrite decide_False by tauto. lia. }
  destruct (decide (ls_mode l = GRADIENT_DESCENT)) as [C|C].
  - specialize (Zg C). eapply PenC_ext.
    + apply PenC_loop with (c := fun j nm i => nsum (ls_out l * ls_in l) (fun k => ind (nm = W j /\ i = k)) + nsum (ls_out l * ls_out l) (fun k => ind (nm = U j /\ i = k))).
      intros j Hj. destruct (Zw j Hj), (Zg j Hj). apply PenC_seq.
      * apply PenC_loop with (c := fun k nm i => ind (nm = W j /\ i = k)). intros k Hk. apply (PenC_ridge sz gsz weights_of lambda n (W j)); cbn; lia.
      * apply PenC_loop with (c := fun k nm i => ind (nm = U j /\ i = k)). intros k Hk. apply (PenC_ridge sz gsz weights_of lambda n (U j)); cbn; lia.
    + intros nm i Hi. cbn beta. rewrite CNT; try (intros; congruence).
      * unfold lstm_penalty. destruct nm; try (rewrite decide_False by (intuition discriminate); try done; by rewrite bool_decide_false by (rewrite C; intuition discriminate)).
        -- rewrite C. destruct (decide (j < 4)); [rewrite bool_decide_true by done; rewrite decide_True; [done|]; destruct j as [|[|[|[|]]]]; try lia; tauto|].
           destruct (Z0 j); lia.
        -- rewrite C. destruct (decide (j < 4)); [rewrite bool_decide_true by done; rewrite decide_True; [done|]; destruct j as [|[|[|[|]]]]; try lia; tauto|].
           destruct (Z0 j); lia.
      * intros j ->. destruct (decide (j < 4)); [done|]. destruct (Z0 j); lia.
      * intros j ->. destruct (decide (j < 4)); [done|]. destruct (Z0 j) as (? & ? & ? & ?); lia.
      * intros j ->. destruct (decide (j < 4)); [destruct (Zg j); lia|]. destruct (Z0 j) as (? & ? & ? & ?); lia.
      * intros j ->. destruct (decide (j < 4)); [destruct (Zg j); lia|]. destruct (Z0 j) as (? & ? & ? & ?); lia.
  - destruct (decide (ls_mode l = EDGE_POPUP)) as [E|E].
    2:{ eapply PenC_ext; [apply PenC_id|]. intros nm i _. unfold lstm_penalty. destruct nm; try done; by rewrite bool_decide_false by tauto. }
    specialize (Zs E). eapply PenC_ext.
    + apply PenC_loop with (c := fun j nm i => nsum (ls_out l * ls_in l) (fun k => ind (nm = WScores j /\ i = k)) + nsum (ls_out l * ls_out l) (fun k => ind (nm = UScores j /\ i = k))).
      intros j Hj. destruct (Zw j Hj), (Zs j Hj). apply PenC_seq.
      * apply PenC_loop with (c := fun k nm i => ind (nm = WScores j /\ i = k)). intros k Hk. apply (PenC_ridge sz gsz weights_of lambda n (WScores j)); cbn; lia.
      * apply PenC_loop with (c := fun k nm i => ind (nm = UScores j /\ i = k)). intros k Hk. apply (PenC_ridge sz gsz weights_of lambda n (UScores j)); cbn; lia.
    + intros nm i Hi. cbn beta. rewrite CNT; try (intros; congruence).
      * unfold lstm_penalty. destruct nm; try (rewrite decide_False by (intuition discriminate); try done; by rewrite bool_decide_false by (rewrite E; intuition discriminate)).
        -- rewrite E. destruct (decide (j < 4)); [rewrite bool_decide_true by done; rewrite decide_True; [done|]; destruct j as [|[|[|[|]]]]; try lia; tauto|].
           destruct (Z0 j) as (? & ? & ? & ?); lia.
        -- rewrite E. destruct (decide (j < 4)); [rewrite bool_decide_true by done; rewrite decide_True; [done|]; destruct j as [|[|[|[|]]]]; try lia; tauto|].
           destruct (Z0 j) as (? & ? & ? & ?); lia.
      * intros j ->. destruct (decide (j < 4)); [done|]. destruct (Z0 j) as (? & ? & ? & ?); lia.
      * intros j ->. destruct (decide (j < 4)); [done|]. destruct (Z0 j) as (? & ? & ? & ?); lia.
      * intros j ->. destruct (decide (j < 4)); [destruct (Zs j); lia|]. destruct (Z0 j) as (? & ? & ? & ?); lia.
      * intros j ->. destruct (decide (j < 4)); [destruct (Zs j); lia|]. destruct (Z0 j) as (? & ? & ? & ?); lia.
Qed.
Lemma l2_cl_gd sz gsz c : cv_conv c = true -> cv_mode c = GRADIENT_DESCENT -> 
  (forall k, k < cv_kernels c -> sz (Kernel k) = cl_sizes c (Kernel k) /\ gsz (Kernel k) = sz (Kernel k)) ->
  (forall b, b < length (cv_group c) -> sz (Gamma b) = cl_sizes c (Gamma b) /\ gsz (Gamma b) = sz (Gamma b)) ->
  PenC (St := St) sz gsz weights_of lambda n (add_l2_cl lambda n c) (fun nm _ => if cl_penalty c nm then 1 else 0).
Proof.
  intros CV C Zk Zg. unfold add_l2_cl. rewrite CV. destruct (decide (cv_mode c = GRADIENT_DESCENT)) as [_|]; [|done]. eapply PenC_ext.
  - apply PenC_seq.
    + apply PenC_loop with (c := fun k nm i => nsum (cv_channels c) (fun u => nsum (cv_rows c) (fun z => nsum (cv_cols c) (fun w => ind (nm = Kernel k /\ i = u * cv_rows c * cv_cols c + z * cv_cols c + w))))).
      intros k Hk.
      apply PenC_loop with (c := fun u nm i => nsum (cv_rows c) (fun z => nsum (cv_cols c) (fun w => ind (nm = Kernel k /\ i = u * cv_rows c * cv_cols c + z * cv_cols c + w)))). intros u Hu.
      apply PenC_loop with (c := fun z nm i => nsum (cv_cols c) (fun w => ind (nm = Kernel k /\ i = u * cv_rows c * cv_cols c + z * cv_cols c + w))). intros z Hz.
      apply PenC_loop with (c := fun w nm i => ind (nm = Kernel k /\ i = u * cv_rows c * cv_cols c + z * cv_cols c + w)). intros w Hw.
      assert (u * cv_rows c * cv_cols c + z * cv_cols c + w < cl_sizes c (Kernel k)) as L.
      { cbn [cl_sizes]. assert (z * cv_cols c + w < cv_rows c * cv_cols c) by nia. rewrite <- !Nat.mul_assoc. nia. }
      apply (PenC_ridge sz gsz weights_of lambda n (Kernel k)); cbn [weights_of]; destruct (Zk k Hk); lia.
    + apply PenC_loop with (c := fun k nm i => nsum (group_dim (cv_group c) k) (fun u => ind (nm = Gamma k /\ i = u))). intros k Hk.
      destruct (lookup_lt_is_Some_2 _ _ Hk) as [b Hb]. eapply Pen_eq; [intros s; unfold rd; rewrite Hb; cbn [mbind option_bind]; reflexivity|].
      assert (group_dim (cv_group c) k = bnl_dim b) as E by (unfold group_dim; by rewrite Hb). rewrite E.
      apply PenC_loop with (c := fun u nm i => ind (nm = Gamma k /\ i = u)). intros u Hu.
      apply (PenC_ridge sz gsz weights_of lambda n (Gamma k)); cbn [weights_of]; destruct (Zg k Hk) as (G1 & G2); cbn [cl_sizes] in G1; lia.
  - intros nm i Hi. cbn beta.
    rewrite (nsum_ext (cv_kernels c) _ (fun k => if bool_decide (nm = Kernel k) then 1 else 0)).
    2:{ intros k Hk. apply flat3_count. intros ->. destruct (Zk k Hk) as (G1 & G2). rewrite G2, G1 in Hi. exact Hi. }
    rewrite (nsum_ext (length _) _ (fun k => if bool_decide (nm = Gamma k) then 1 else 0)).
    2:{ intros k Hk. apply line_count. intros ->. destruct (Zg k Hk) as (G1 & G2). by rewrite G2, G1 in Hi. }
    destruct nm; cbn [cl_penalty]; try (rewrite !nsum_0; [done| |]; intros; by rewrite bool_decide_false by done).
    + rewrite (nsum_0 (length _)) by (intros; by rewrite bool_decide_false by done). rewrite Nat.add_0_r.
      rewrite (nsum_ext _ _ (fun k' => if decide (k' = k) then 1 else 0)); [rewrite nsum_pick; case_bool_decide; by destruct decide|].
      intros k' _. destruct (decide (k' = k)) as [->|]; [by rewrite bool_decide_true|rewrite bool_decide_false; [done|congruence]].
    + rewrite (nsum_0 (cv_kernels c)) by (intros; by rewrite bool_decide_false by done). cbn [Nat.add].
      rewrite (nsum_ext _ _ (fun k' => if decide (k' = b) then 1 else 0)); [rewrite nsum_pick; case_bool_decide; by destruct decide|].
      intros k' _. destruct (decide (k' = b)) as [->|]; [by rewrite bool_decide_true|rewrite bool_decide_false; [done|congruence]].
Qed.
(** edge-popup convolution: the penalties of all weights of kernel k go to score k *)
Lemma l2_cl_edge_popup sz gsz c : cv_conv c = true -> cv_mode c = EDGE_POPUP -> (forall k, k < cv_kernels c -> sz (Kernel k) = cl_sizes c (Kernel k)) -> cv_kernels c <= gsz Scores ->
  Pen (St := St) sz gsz (add_l2_cl lambda n c) (fun v nm i =>
    if decide (nm = Scores /\ i < cv_kernels c) then (lambda / INR n * sumn (cv_channels c * cv_rows c * cv_cols c) (fun t => el (v (Kernel i)) t))%R else 0%R).
Proof.
  intros CV C Zs Zg. unfold add_l2_cl. rewrite CV. destruct (decide (cv_mode c = GRADIENT_DESCENT)) as [X|_]; [by rewrite C in X|]. destruct (decide (cv_mode c = EDGE_POPUP)) as [_|]; [|done]. eapply Pen_ext.
  - apply Pen_loop with (D := fun k v nm i => sumn (cv_channels c) (fun u => sumn (cv_rows c) (fun z => sumn (cv_cols c) (fun w =>
       INR (ind (nm = Scores /\ i = k)) * (lambda / INR n * el (v (Kernel k)) (u * cv_rows c * cv_cols c + z * cv_cols c + w)))))%R).
    intros k Hk. apply (Pen_loop sz gsz (cv_channels c) _ (fun u v nm i => sumn (cv_rows c) (fun z => sumn (cv_cols c) (fun w => INR (ind (nm = Scores /\ i = k)) * (lambda / INR n * el (v (Kernel k)) (u * cv_rows c * cv_cols c + z * cv_cols c + w)))))%R). intros u Hu.
    apply (Pen_loop sz gsz (cv_rows c) _ (fun z v nm i => sumn (cv_cols c) (fun w => INR (ind (nm = Scores /\ i = k)) * (lambda / INR n * el (v (Kernel k)) (u * cv_rows c * cv_cols c + z * cv_cols c + w))))%R). intros z Hz.
    apply (Pen_loop sz gsz (cv_cols c) _ (fun w v nm i => INR (ind (nm = Scores /\ i = k)) * (lambda / INR n * el (v (Kernel k)) (u * cv_rows c * cv_cols c + z * cv_cols c + w)))%R). intros w Hw.
    apply Pen_ridge; [lia|]. rewrite Zs by done. cbn [cl_sizes]. assert (z * cv_cols c + w < cv_rows c * cv_cols c) by nia. rewrite <- !Nat.mul_assoc. nia.
  - intros v nm i Hi _. cbn beta.
    set (T := fun k => (lambda / INR n * sumn (cv_channels c * cv_rows c * cv_cols c) (fun t => el (v (Kernel k)) t))%R).
    rewrite (sumn_ext (cv_kernels c) _ (fun k => INR (ind (nm = Scores /\ i = k)) * T k)%R).
    2:{ intros k Hk. unfold T. rewrite <- Rmult_assoc, <- sumn_scal_l. rewrite <- Nat.mul_assoc, sumn_mul. apply sumn_ext. intros u Hu. rewrite sumn_mul. apply sumn_ext. intros z Hz. apply sumn_ext. intros w Hw.
        rewrite <- Rmult_assoc. do 2 f_equal. rewrite <- Nat.mul_assoc. lia. }
    destruct (decide (nm = Scores /\ i < cv_kernels c)) as [(-> & L)|N].
    + rewrite (sumn_single _ i); [rewrite ind_yes by done; cbn; unfold T; lra|done|]. intros k Hk Nk. rewrite ind_no by (intros [_ ?]; congruence). cbn. lra.
    + apply sumn_0. intros k Hk. rewrite ind_no; [cbn; lra|]. intros [? ?]. subst. tauto.
Qed.
End layers.
