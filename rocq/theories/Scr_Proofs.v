(** Proofs about the operations on edge-popup scores. *)
From Coq Require Import Reals Lra.
From Verif Require Import Base BaseLemmas Flat_Model Flat_Spec Scr_Model Scr_Spec.
Open Scope nat_scope.

Section proofs.
  Context {F : Type}.
  Implicit Types h : mem F.

  Lemma upd_eq h a s l : upd h a s l a s = Some l.
  Proof. unfold upd. rewrite decide_True; auto. Qed.
  Lemma upd_ne h a s l a' s' : (a', s') <> (a, s) -> upd h a s l a' s' = h a' s'.
  Proof. intros N. unfold upd. rewrite decide_False; [done|]. intros [-> ->]. done. Qed.

  (** one layer of any sort *)
  Definition op2_layer (g : F -> F -> F -> F) (x y z : layer) (h : mem F) : option (mem F) :=
    match x, y, z with
    | Dense a, Dense b, Dense o => op2_fcl g a b o h
    | Conv a, Conv b, Conv o => op2_cl g a b o h
    | _, _, _ => None
    end.
  Definition alike (x y : layer) : Prop :=
    layout ScoresOf x = layout ScoresOf y /\
    match x, y with Dense _, Dense _ => True | Conv _, Conv _ => True | _, _ => False end.

  Lemma layout_dense f : layout ScoresOf (Dense f) =
    if exists_edge_popup_stuff_fcl f then [(Some (Val Scores), f_in f * f_out f)] else [].
  Proof.
    unfold exists_edge_popup_stuff_fcl, layout. destruct (f_ff f), (f_tr f); reflexivity.
  Qed.
  Lemma layout_conv c : layout ScoresOf (Conv c) =
    if exists_edge_popup_stuff_cl c then [(Some (Val Scores), nsc c)] else [].
  Proof.
    unfold exists_edge_popup_stuff_cl, layout. destruct (c_conv c), (c_ff c), (c_tr c); reflexivity.
  Qed.

  Lemma loop2_ok g n (a b : list F) o l h :
    h o (Val Scores) = Some l -> length a = n -> length b = n -> length l = n ->
    exists h', loop2 g n (Some a) (Some b) o h = Some h' /\
      (forall j, j < n -> exists p q r l', a !! j = Some p /\ b !! j = Some q /\ l !! j = Some r /\
        h' o (Val Scores) = Some l' /\ l' !! j = Some (g p q r)) /\
      (exists l', h' o (Val Scores) = Some l' /\ length l' = n) /\
      (forall a' s', (a', s') <> (o, Val Scores) -> h' a' s' = h a' s').
  Proof.
    intros E La Lb Ll. unfold loop2. rewrite E. destruct n as [|n].
    - exists h. split; [done|]. split; [lia|]. split; [eauto|done].
    - rewrite decide_True by lia. eexists. split; [reflexivity|].
      rewrite !take_ge, drop_ge, app_nil_r by lia.
      split; [|split].
      + intros j Hj. destruct (lookup_lt_is_Some_2 a j) as [p Ep]; [lia|].
        destruct (lookup_lt_is_Some_2 b j) as [q Eq]; [lia|].
        destruct (lookup_lt_is_Some_2 l j) as [r Er]; [lia|].
        exists p, q, r. eexists. do 3 (split; [done|]). rewrite upd_eq. split; [reflexivity|].
        rewrite lookup_zip_with, lookup_zip_with, Ep, Eq, Er. reflexivity.
      + eexists. rewrite upd_eq. split; [reflexivity|].
        rewrite zip_with_length, zip_with_length. lia.
      + intros a' s' N. apply upd_ne. done.
  Qed.

  (** what one layer does *)
  Definition done2 (g : F -> F -> F -> F) (x y z : layer) (h h' : mem F) : Prop :=
    (forall n j, with_scores z n -> j < n ->
       exists p q r, score h x j = Some p /\ score h y j = Some q /\ score h z j = Some r /\
         score h' z j = Some (g p q r)) /\
    (forall a s, (a, s) <> (addr z, Val Scores) \/ without_scores z -> h' a s = h a s) /\
    (forall n, with_scores z n -> exists l, h' (addr z) (Val Scores) = Some l /\ length l = n).

  Definition ready (h : mem F) (z : layer) : Prop :=
    forall n, with_scores z n -> exists l, h (addr z) (Val Scores) = Some l /\ length l = n.

  Lemma op2_layer_ok g x y z h :
    alike x z -> alike y z -> ready h x -> ready h y -> ready h z ->
    exists h', op2_layer g x y z h = Some h' /\ done2 g x y z h h'.
  Proof.
    intros [Ex Kx] [Ey Ky] Rx Ry Rz.
    assert (G : forall n, with_scores z n ->
      exists h', loop2 g n (h (addr x) (Val Scores)) (h (addr y) (Val Scores)) (addr z) h = Some h' /\
        done2 g x y z h h').
    { intros n W. destruct (Rx n) as (a & Ea & La); [unfold with_scores; congruence|].
      destruct (Ry n) as (b & Eb & Lb); [unfold with_scores; congruence|].
      destruct (Rz n W) as (l & El & Ll). rewrite Ea, Eb.
      destruct (loop2_ok g n a b (addr z) l h El La Lb Ll) as (h' & E' & P & Q & N).
      exists h'. split; [done|]. split; [|split].
      - intros n' j W' Hj. assert (n' = n) as -> by (unfold with_scores in *; congruence).
        destruct (P j Hj) as (p & q & r & l' & Hp & Hq & Hr & El' & Hl').
        exists p, q, r. unfold score. rewrite Ea, Eb, El, El'. cbn. auto.
      - intros a' s' [X|X]; [by apply N|]. unfold with_scores, without_scores in *. congruence.
      - intros n' W'. assert (n' = n) as -> by (unfold with_scores in *; congruence). done. }
    assert (G0 : without_scores z -> done2 g x y z h h).
    { intros W. split; [|split].
      - unfold with_scores, without_scores in *. intros; congruence.
      - done.
      - unfold with_scores, without_scores in *. intros; congruence. }
    destruct x as [fa|ca|], y as [fb|cb|], z as [fo|co|]; try done; clear Kx Ky; cbn [op2_layer addr] in *.
    - unfold op2_fcl. rewrite !layout_dense in *.
      unfold with_scores, without_scores in G, G0. rewrite layout_dense in G, G0.
      destruct (exists_edge_popup_stuff_fcl fo) eqn:Eo,
        (exists_edge_popup_stuff_fcl fa), (exists_edge_popup_stuff_fcl fb); try done; cbn.
      + injection Ex as Ex. injection Ey as Ey. rewrite decide_False by lia.
        rewrite Ex. by apply G.
      + eauto.
    - unfold op2_cl. rewrite !layout_conv in *.
      unfold with_scores, without_scores in G, G0. rewrite layout_conv in G, G0.
      destruct (exists_edge_popup_stuff_cl co) eqn:Eo,
        (exists_edge_popup_stuff_cl ca), (exists_edge_popup_stuff_cl cb); try done; cbn.
      + injection Ex as Ex. injection Ey as Ey. rewrite decide_False by lia.
        rewrite Ex. by apply G.
      + eauto.
  Qed.

  Lemma each3_app {L S} (f : L -> L -> L -> S -> option S) la lb lo la' lb' lo' s :
    length la = length lb -> length la = length lo ->
    each3 f (la ++ la') (lb ++ lb') (lo ++ lo') s = (each3 f la lb lo s ≫= each3 f la' lb' lo').
  Proof.
    revert lb lo s. induction la as [|a la IH]; intros [|b lb] [|o lo] s; cbn; try done.
    intros E1 E2. destruct (f a b o s); cbn; [|done]. apply IH; lia.
  Qed.
  Lemma each3_map {L M S} (k : M -> L) (f : L -> L -> L -> S -> option S) la lb lo s :
    each3 f (k <$> la) (k <$> lb) (k <$> lo) s = each3 (fun a b o => f (k a) (k b) (k o)) la lb lo s.
  Proof.
    revert lb lo s. induction la as [|a la IH]; intros [|b lb] [|o lo] s; cbn; try done.
    destruct (f _ _ _ s); cbn; [apply IH|done].
  Qed.
  Lemma same_rls (ra ro : list rl) :
    ((fun r => layout ScoresOf ∘ Conv <$> r_cls r) <$> ra) =
    ((fun r => layout ScoresOf ∘ Conv <$> r_cls r) <$> ro) ->
    Forall2 (fun a o => length (r_cls a) = length (r_cls o)) ra ro.
  Proof.
    revert ro. induction ra as [|a ra IH]; intros [|o ro] E; try done.
    injection E as E E'. constructor; [|by apply IH].
    apply (f_equal length) in E. by rewrite !fmap_length in E.
  Qed.
  Lemma each3_rls g ra rb ro h :
    Forall2 (fun a o => length (r_cls a) = length (r_cls o)) ra rb ->
    Forall2 (fun a o => length (r_cls a) = length (r_cls o)) ra ro ->
    each3 (op2_layer g) (ra ≫= fun r => Conv <$> r_cls r) (rb ≫= fun r => Conv <$> r_cls r)
      (ro ≫= fun r => Conv <$> r_cls r) h =
    each3 (fun ra rb ro => each3 (op2_cl g) (r_cls ra) (r_cls rb) (r_cls ro)) ra rb ro h.
  Proof.
    intros H. revert ro h. induction H as [|a b ra rb E _ IH]; intros ro h H';
      inversion H' as [|? o ? ro' E' H'']; subst; [done|].
    cbn. rewrite each3_app by (rewrite !fmap_length; lia).
    rewrite each3_map.
    change (each3 (fun a0 b0 o0 : cl => op2_layer g (Conv a0) (Conv b0) (Conv o0))) with (each3 (op2_cl g)).
    destruct (each3 (op2_cl g) _ _ _ h); cbn; [by apply IH|done].
  Qed.

  Lemma same_shape_len a b : same_shape a b ->
    length (m_fcls a) = length (m_fcls b) /\ length (m_cls a) = length (m_cls b).
  Proof.
    intros (E1 & E2 & _). apply (f_equal length) in E1. apply (f_equal length) in E2.
    rewrite !fmap_length in E1. rewrite !fmap_length in E2. done.
  Qed.
  Lemma op2_model_layers g a b o h : same_shape a b -> same_shape a o ->
    op2_model g a b o h = each3 (op2_layer g) (layers_model a) (layers_model b) (layers_model o) h.
  Proof.
    intros H H'. destruct (same_shape_len _ _ H), (same_shape_len _ _ H').
    destruct H as (_ & _ & H), H' as (_ & _ & H'). apply same_rls in H, H'.
    unfold op2_model, layers_model. rewrite each3_app by (rewrite !fmap_length; lia).
    rewrite each3_map.
    change (each3 (fun a0 b0 o0 : fcl => op2_layer g (Dense a0) (Dense b0) (Dense o0))) with (each3 (op2_fcl g)).
    destruct (each3 (op2_fcl g) _ _ _ h) as [h1|]; cbn; [|done].
    rewrite each3_app by (rewrite !fmap_length; lia).
    rewrite each3_map.
    change (each3 (fun a0 b0 o0 : cl => op2_layer g (Conv a0) (Conv b0) (Conv o0))) with (each3 (op2_cl g)).
    destruct (each3 (op2_cl g) _ _ _ h1) as [h2|]; cbn; [|done].
    by rewrite each3_rls.
  Qed.

  Lemma alike_map (k : Type) (c : k -> layer) la lo :
    (forall x y, alike (c x) (c y) <-> layout ScoresOf (c x) = layout ScoresOf (c y)) ->
    (layout ScoresOf ∘ c <$> la) = (layout ScoresOf ∘ c <$> lo) ->
    Forall2 alike (c <$> la) (c <$> lo).
  Proof.
    intros K. revert lo. induction la as [|a la IH]; intros [|o lo] E; try done; [constructor|].
    injection E as E E'. constructor; [by apply K|by apply IH].
  Qed.
  Lemma same_shape_alike a b : same_shape a b -> Forall2 alike (layers_model a) (layers_model b).
  Proof.
    intros (E1 & E2 & E3). unfold layers_model. apply Forall2_app; [|apply Forall2_app].
    - apply alike_map; [|done]. intros; unfold alike; tauto.
    - apply alike_map; [|done]. intros; unfold alike; tauto.
    - revert E3. generalize (m_rls b) as lo. induction (m_rls a) as [|r ra IH]; intros [|s lo] E; try done; [constructor|].
      injection E as E E'. cbn. apply Forall2_app; [|by apply IH].
      apply alike_map; [|done]. intros; unfold alike; tauto.
  Qed.
  Lemma same_shape_sym a b : same_shape a b -> same_shape b a.
  Proof. intros (A & B & C). split_and!; by symmetry. Qed.
  Lemma same_shape_refl a : same_shape a a.
  Proof. by split_and!. Qed.
  Lemma same_shape_trans a b c : same_shape a b -> same_shape b c -> same_shape a c.
  Proof. intros (A & B & C) (A' & B' & C'). split_and!; congruence. Qed.
  Lemma alike_sym x y : alike x y -> alike y x.
  Proof. intros [E K]. split; [done|]. by destruct x, y. Qed.

  Lemma ready_other h h' z z' g x y : done2 g x y z h h' -> addr z' <> addr z -> ready h z' -> ready h' z'.
  Proof.
    intros (_ & N & _) D R n W. destruct (R n W) as (l & E & L). exists l. split; [|done].
    rewrite N; [done|]. left. congruence.
  Qed.
  Lemma score_other h h' z z' g x y j : done2 g x y z h h' -> addr z' <> addr z ->
    score h' z' j = score h z' j.
  Proof. intros (_ & N & _) D. unfold score. rewrite N; [done|]. left. congruence. Qed.

  Lemma each3_ok g la lb lo h :
    Forall2 alike la lo -> Forall2 alike lb lo ->
    Forall (ready h) la -> Forall (ready h) lb -> Forall (ready h) lo ->
    NoDup (addr <$> lo) ->
    (forall i j x z, la !! i = Some x -> lo !! j = Some z -> addr x = addr z -> i = j) ->
    (forall i j x z, lb !! i = Some x -> lo !! j = Some z -> addr x = addr z -> i = j) ->
    exists h', each3 (op2_layer g) la lb lo h = Some h' /\
      (forall i x y z n j, la !! i = Some x -> lb !! i = Some y -> lo !! i = Some z ->
         with_scores z n -> j < n ->
         exists p q r, score h x j = Some p /\ score h y j = Some q /\ score h z j = Some r /\
           score h' z j = Some (g p q r)) /\
      (forall a s, (forall z, z ∈ lo -> ~ without_scores z -> (a, s) <> (addr z, Val Scores)) ->
         h' a s = h a s) /\
      Forall (ready h') lo.
  Proof.
    intros A. revert lb h. induction A as [|x z la lo Kx A IH]; intros lb h B Ra Rb Ro ND Ia Ib.
    - inversion B; subst. exists h. split; [done|]. split; [|split; [done|constructor]].
      intros i x' y z n j E. by rewrite lookup_nil in E.
    - inversion B as [|y ? lb' ? Ky B']; subst. rename lb' into lb.
      inversion Ra as [|? ? Rx Ra']; inversion Rb as [|? ? Ry Rb']; inversion Ro as [|? ? Rz Ro']; subst.
      rewrite fmap_cons in ND. apply list.NoDup_cons in ND as [Nz ND].
      destruct (op2_layer_ok g x y z h Kx Ky Rx Ry Rz) as (h1 & E1 & D1).
      assert (Za : forall i x', la !! i = Some x' -> addr x' <> addr z).
      { intros i x' E X. specialize (Ia (S i) 0 x' z E eq_refl X). lia. }
      assert (Zb : forall i x', lb !! i = Some x' -> addr x' <> addr z).
      { intros i x' E X. specialize (Ib (S i) 0 x' z E eq_refl X). lia. }
      assert (Zo : forall i x', lo !! i = Some x' -> addr x' <> addr z).
      { intros i x' E X. apply Nz. apply elem_of_list_fmap. exists x'. split; [done|].
        by eapply elem_of_list_lookup_2. }
      assert (R' : forall l, (forall i x', l !! i = Some x' -> addr x' <> addr z) ->
        Forall (ready h) l -> Forall (ready h1) l).
      { intros l Z R. apply Forall_lookup_2. intros i x' E.
        eapply ready_other; [exact D1|by eapply Z|]. by eapply Forall_lookup_1. }
      destruct (IH lb h1) as (h' & E' & P & Q & R); try done; [by apply R'..| | |].
      { intros i j x' z' Ei Ej X. specialize (Ia (S i) (S j) x' z' Ei Ej X). lia. }
      { intros i j x' z' Ei Ej X. specialize (Ib (S i) (S j) x' z' Ei Ej X). lia. }
      assert (Keep : forall s, h' (addr z) s = h1 (addr z) s).
      { intros s. apply Q. intros z' Hz' _ X. injection X as X _.
        apply elem_of_list_lookup in Hz' as [i Hi]. by apply (Zo i z' Hi). }
      exists h'. split; [cbn; rewrite E1; exact E'|]. split; [|split].
      + intros [|i] x' y' z' n j Ex Ey Ez W Hj; cbn in Ex, Ey, Ez.
        * injection Ex as <-. injection Ey as <-. injection Ez as <-.
          destruct D1 as (D & _). destruct (D n j W Hj) as (p & q & r & Hp & Hq & Hr & Hg).
          exists p, q, r. do 3 (split; [done|]). unfold score. rewrite Keep. exact Hg.
        * destruct (P i x' y' z' n j Ex Ey Ez W Hj) as (p & q & r & Hp & Hq & Hr & Hg).
          exists p, q, r.
          erewrite <- (score_other h h1 z x'), <- (score_other h h1 z y'), <- (score_other h h1 z z');
            eauto.
      + intros a s N. rewrite Q.
        * destruct D1 as (_ & D & _). apply D.
          destruct (decide (without_scores z)) as [W|W]; [by right|left]. apply N; [by left|done].
        * intros z' Hz'. apply N. by right.
      + constructor; [|done]. intros n W. rewrite Keep. destruct D1 as (_ & _ & D). by apply D.
  Qed.

  Lemma shapes z : (exists n, with_scores z n) \/ without_scores z \/ exists l, z = Lstmc l.
  Proof.
    destruct z as [f|c|l]; [| |by eauto].
    - unfold with_scores, without_scores. rewrite layout_dense.
      destruct (exists_edge_popup_stuff_fcl f); eauto.
    - unfold with_scores, without_scores. rewrite layout_conv.
      destruct (exists_edge_popup_stuff_cl c); eauto.
  Qed.
  Lemma no_lstm m l : Lstmc l ∉ layers_model m.
  Proof.
    unfold layers_model. rewrite !elem_of_app, !elem_of_list_fmap, elem_of_list_bind.
    intros [(? & ? & _)|[(? & ? & _)|(? & X & _)]]; try done.
    apply elem_of_list_fmap in X as (? & ? & _). done.
  Qed.
  Lemma has_scores_ready h m : has_scores h m -> Forall (ready h) (layers_model m).
  Proof.
    intros H. apply list.Forall_forall. intros z Hz n W.
    destruct (H (addr z) (Val Scores) n) as (l & E & L); [|eauto].
    unfold entries. apply elem_of_list_bind. exists z. split; [|done]. rewrite W. cbn. left.
  Qed.
  Lemma ready_has_scores h m : Forall (ready h) (layers_model m) -> has_scores h m.
  Proof.
    intros H a s n E. unfold entries in E. apply elem_of_list_bind in E as (z & E & Hz).
    destruct (shapes z) as [[n' W]|[W|[l ->]]].
    - pose proof W as W'. unfold with_scores in W. rewrite W in E. cbn in E.
      apply elem_of_list_singleton in E. injection E as -> -> ->.
      rewrite list.Forall_forall in H. by apply (H z Hz).
    - unfold without_scores in W. rewrite W in E. cbn in E. by apply elem_of_nil in E.
    - by apply no_lstm in Hz.
  Qed.
  Lemma changes_entries (m : model) h h' :
    (forall a s, (forall z, z ∈ layers_model m -> ~ without_scores z -> (a, s) <> (addr z, Val Scores)) ->
         h' a s = h a s) ->
    only_changes (entries ScoresOf (layers_model m)) h h'.
  Proof.
    intros H a s N. apply H. intros z Hz W X. injection X as -> ->.
    destruct (shapes z) as [[n' W']|[W'|[l ->]]]; [|done|by apply no_lstm in Hz].
    apply (N n'). unfold entries. apply elem_of_list_bind. exists z. split; [|done].
    rewrite W'. cbn. left.
  Qed.

  Lemma op2_model_ok g a b o h :
    same_shape a o -> same_shape b o -> has_scores h a -> has_scores h b -> has_scores h o ->
    own_layers o -> in_step a o -> in_step b o ->
    exists h', op2_model g a b o h = Some h' /\ combined g a b o h h' /\ has_scores h' o.
  Proof.
    intros Sa Sb Ha Hb Ho ND Ia Ib.
    rewrite op2_model_layers; [|eapply same_shape_trans; [done|by apply same_shape_sym]|done].
    destruct (each3_ok g (layers_model a) (layers_model b) (layers_model o) h) as (h' & E & P & Q & R);
      try done; try (by apply same_shape_alike); try (by apply has_scores_ready).
    exists h'. split; [done|]. split; [|by apply ready_has_scores].
    split; [done|]. by apply changes_entries.
  Qed.

  (** ** one-model operations *)
  Definition op1_layer (f : fcl -> mem F -> option (mem F)) (c : cl -> mem F -> option (mem F))
      (z : layer) (h : mem F) : option (mem F) :=
    match z with Dense a => f a h | Conv a => c a h | Lstmc _ => None end.
  Lemma each1_app {L S} (f : L -> S -> option S) l l' s :
    each1 f (l ++ l') s = (each1 f l s ≫= each1 f l').
  Proof. revert s. induction l as [|x l IH]; intros s; cbn; [done|]. destruct (f x s); cbn; auto. Qed.
  Lemma each1_map {L M S} (k : M -> L) (f : L -> S -> option S) l s :
    each1 f (k <$> l) s = each1 (fun x => f (k x)) l s.
  Proof. revert s. induction l as [|x l IH]; intros s; cbn; [done|]. destruct (f (k x) s); cbn; auto. Qed.
  Lemma op1_model_layers f c m h :
    op1_model f c m h = each1 (op1_layer f c) (layers_model m) h.
  Proof.
    unfold op1_model, layers_model. rewrite each1_app, each1_map.
    change (each1 (fun x : fcl => op1_layer f c (Dense x))) with (each1 f).
    destruct (each1 f _ h) as [h1|]; cbn; [|done].
    rewrite each1_app, each1_map.
    change (each1 (fun x : cl => op1_layer f c (Conv x))) with (each1 c).
    destruct (each1 c _ h1) as [h2|]; cbn; [|done].
    generalize h2. induction (m_rls m) as [|r rs IH]; intros h3; [done|]. cbn.
    rewrite each1_app, each1_map.
    change (each1 (fun x : cl => op1_layer f c (Conv x))) with (each1 c).
    destruct (each1 c (r_cls r) h3); cbn; [apply IH|done].
  Qed.

  Definition done1 (g : F -> F) (z : layer) (h h' : mem F) : Prop :=
    (forall n j, with_scores z n -> j < n -> exists r, score h z j = Some r /\ score h' z j = Some (g r)) /\
    (forall a s, (a, s) <> (addr z, Val Scores) \/ without_scores z -> h' a s = h a s) /\
    (forall n, with_scores z n -> exists l, h' (addr z) (Val Scores) = Some l /\ length l = n).

  Lemma each1_ok f c g lo h :
    (forall z h, z ∈ lo -> ready h z -> (without_scores z -> h (addr z) (Val Scores) = None) ->
       exists h', op1_layer f c z h = Some h' /\ done1 g z h h') ->
    Forall (ready h) lo -> NoDup (addr <$> lo) ->
    (forall z, z ∈ lo -> without_scores z -> h (addr z) (Val Scores) = None) ->
    exists h', each1 (op1_layer f c) lo h = Some h' /\
      (forall z n j, z ∈ lo -> with_scores z n -> j < n ->
         exists r, score h z j = Some r /\ score h' z j = Some (g r)) /\
      (forall a s, (forall z, z ∈ lo -> ~ without_scores z -> (a, s) <> (addr z, Val Scores)) ->
         h' a s = h a s) /\
      Forall (ready h') lo.
  Proof.
    intros St. revert h. induction lo as [|z lo IH]; intros h R ND U.
    - exists h. split; [done|]. split; [|split; [done|constructor]]. intros z n j E. by apply elem_of_nil in E.
    - inversion R as [|? ? Rz R']; subst. rewrite fmap_cons in ND. apply list.NoDup_cons in ND as [Nz ND].
      destruct (St z h) as (h1 & E1 & D1); [left|done|apply U; left|].
      assert (Zo : forall z', z' ∈ lo -> addr z' <> addr z).
      { intros z' E X. apply Nz. apply elem_of_list_fmap. by exists z'. }
      assert (Same : forall z' s, z' ∈ lo -> h1 (addr z') s = h (addr z') s).
      { intros z' s Hz'. destruct D1 as (_ & N & _). apply N. left. intros X. injection X as X _.
        by apply (Zo z'). }
      destruct (IH (fun z h H => St z h (elem_of_list_further _ _ _ H)) h1) as (h' & E' & P & Q & R1).
      { apply list.Forall_forall. intros z' Hz' n W. rewrite Same by done.
        rewrite list.Forall_forall in R'. by apply (R' z'). }
      { done. }
      { intros z' Hz' W. rewrite Same by done. apply U; [by right|done]. }
      assert (Keep : forall s, h' (addr z) s = h1 (addr z) s).
      { intros s. apply Q. intros z' Hz' _ X. injection X as X _. by apply (Zo z' Hz'). }
      exists h'. split; [cbn; rewrite E1; exact E'|]. split; [|split].
      + intros z' n j Hz' W Hj. apply elem_of_cons in Hz' as [->|Hz'].
        * destruct D1 as (D & _). destruct (D n j W Hj) as (r & Hr & Hg).
          exists r. split; [done|]. unfold score. rewrite Keep. exact Hg.
        * destruct (P z' n j Hz' W Hj) as (r & Hr & Hg). exists r. split; [|done].
          unfold score in *. rewrite Same in Hr by done. exact Hr.
      + intros a s N. rewrite Q.
        * destruct D1 as (_ & D & _). apply D.
          destruct (decide (without_scores z)) as [W|W]; [by right|left]. apply N; [by left|done].
        * intros z' Hz'. apply N. by right.
      + constructor; [|done]. intros n W. rewrite Keep. destruct D1 as (_ & _ & D). by apply D.
  Qed.

  Lemma loop1_ok g n z h : with_scores z n -> ready h z ->
    exists h', loop1 g n (addr z) (Val Scores) h = Some h' /\ done1 g z h h'.
  Proof.
    intros W R. destruct (R n W) as (l & E & L). unfold loop1. rewrite E.
    assert (U : forall n', with_scores z n' -> n' = n) by (unfold with_scores in *; intros; congruence).
    assert (U0 : ~ without_scores z) by (unfold with_scores, without_scores in *; congruence).
    destruct n as [|n].
    - exists h. split; [done|]. split; [|split; [done|]].
      + intros n' j W' Hj. apply U in W'. lia.
      + intros n' W'. rewrite (U _ W'). eauto.
    - rewrite decide_True by lia. eexists. split; [reflexivity|].
      rewrite take_ge, drop_ge, app_nil_r by lia. split; [|split].
      + intros n' j W' Hj. apply U in W' as ->.
        destruct (lookup_lt_is_Some_2 l j) as [r Er]; [lia|]. exists r. unfold score.
        rewrite E, upd_eq. cbn. rewrite list_lookup_fmap, Er. done.
      + intros a s [X|X]; [by apply upd_ne|done].
      + intros n' W'. rewrite (U _ W'). rewrite upd_eq. eexists. split; [reflexivity|].
        by rewrite fmap_length.
  Qed.

  Lemma done1_nothing g z h : without_scores z -> done1 g z h h.
  Proof. intros W. unfold done1, with_scores, without_scores in *. split_and!; intros; congruence. Qed.

  Lemma fill_layer_ok x z h : (forall l, z <> Lstmc l) -> ready h z ->
    (without_scores z -> h (addr z) (Val Scores) = None) ->
    exists h', op1_layer (fill_score_fcl x) (fill_score_cl x) z h = Some h' /\ done1 (fun _ => x) z h h'.
  Proof.
    intros NL R U. destruct z as [f|c|l]; [| |by destruct (NL l)]; cbn [op1_layer].
    - unfold fill_score_fcl. destruct (shapes (Dense f)) as [[n W]|[W|[? [=]]]].
      + destruct (R n W) as (l & E & L). cbn [addr] in E. rewrite E.
        assert (f_ff f <> OnlyDropout /\ n = f_in f * f_out f) as [D ->].
        { unfold with_scores in W. rewrite layout_dense in W.
          destruct (exists_edge_popup_stuff_fcl f) eqn:X; [|done]. split; [|congruence].
          unfold exists_edge_popup_stuff_fcl in X. apply andb_true_iff in X as [X _].
          by apply bool_decide_eq_true in X. }
        rewrite decide_False by done. by apply (loop1_ok (fun _ => x) _ (Dense f)).
      + specialize (U W). cbn [addr] in U. rewrite U. exists h. split; [done|]. by apply done1_nothing.
    - unfold fill_score_cl. destruct (shapes (Conv c)) as [[n W]|[W|[? [=]]]].
      + destruct (R n W) as (l & E & L). cbn [addr] in E. rewrite E.
        assert (c_conv c = true /\ n = nsc c) as [D ->].
        { unfold with_scores in W. rewrite layout_conv in W.
          destruct (exists_edge_popup_stuff_cl c) eqn:X; [|done]. split; [|congruence].
          unfold exists_edge_popup_stuff_cl in X. by apply andb_true_iff in X as [X _]. }
        rewrite D. by apply (loop1_ok (fun _ => x) _ (Conv c)).
      + specialize (U W). cbn [addr] in U. rewrite U. exists h.
        split; [by destruct (c_conv c)|]. by apply done1_nothing.
  Qed.

  Lemma fill_model_ok x m h : has_scores h m -> own_layers m -> no_other_scores h m ->
    exists h', op1_model (fill_score_fcl x) (fill_score_cl x) m h = Some h' /\
      mapped (fun _ => x) m h h' /\ has_scores h' m.
  Proof.
    intros H ND U. rewrite op1_model_layers.
    destruct (each1_ok (fill_score_fcl x) (fill_score_cl x) (fun _ => x) (layers_model m) h)
      as (h' & E & P & Q & R); try done.
    - intros z h0 Hz R U0. apply fill_layer_ok; [|done|done]. intros l ->. by apply no_lstm in Hz.
    - by apply has_scores_ready.
    - exists h'. split; [done|]. split; [|by apply ready_has_scores].
      split; [done|]. by apply changes_entries.
  Qed.

  Variable div : F -> F -> F.
  Lemma dividing_layer_ok x z n h : with_scores z n -> ready h z -> (forall l, z <> Lstmc l) ->
    exists h', op1_layer (dividing_score_fcl div x) (dividing_score_cl div x) z h = Some h' /\
      done1 (fun s => div s x) z h h'.
  Proof.
    intros W R NL. destruct z as [f|c|l]; [| |by destruct (NL l)]; cbn [op1_layer].
    - unfold dividing_score_fcl.
      assert (n = f_in f * f_out f) as ->.
      { unfold with_scores in W. rewrite layout_dense in W. destruct (exists_edge_popup_stuff_fcl f); congruence. }
      by apply (loop1_ok (fun s => div s x) _ (Dense f)).
    - unfold dividing_score_cl.
      assert (n = nsc c) as ->.
      { unfold with_scores in W. rewrite layout_conv in W. destruct (exists_edge_popup_stuff_cl c); congruence. }
      by apply (loop1_ok (fun s => div s x) _ (Conv c)).
  Qed.

  (** every layer has scores *)
  Lemma dividing_model_ok x m h : has_scores h m -> own_layers m ->
    (forall z, z ∈ layers_model m -> exists n, with_scores z n) ->
    exists h', dividing_score_model div x m h = Some h' /\ mapped (fun s => div s x) m h h'.
  Proof.
    intros H ND A. unfold dividing_score_model. rewrite op1_model_layers.
    destruct (each1_ok (dividing_score_fcl div x) (dividing_score_cl div x) (fun s => div s x)
      (layers_model m) h) as (h' & E & P & Q & R); try done.
    - intros z h0 Hz R _. destruct (A z Hz) as [n W]. eapply dividing_layer_ok; [done|done|].
      intros l ->. by apply no_lstm in Hz.
    - by apply has_scores_ready.
    - intros z Hz W'. destruct (A z Hz) as [n W]. unfold with_scores, without_scores in *. congruence.
    - exists h'. split; [done|]. split; [done|]. by apply changes_entries.
  Qed.

  Definition cells (z : layer) : nat :=
    match z with Dense f => f_in f * f_out f | Conv c => nsc c | Lstmc _ => 0 end.
  Lemma loop1_keeps g n a s h h' : loop1 g n a s h = Some h' -> forall a' s', h a' s' = None -> h' a' s' = None.
  Proof.
    unfold loop1. destruct n; [intros [= ->]; done|]. destruct (h a s) as [l|] eqn:E; [|done].
    destruct (decide _); [|done]. intros [= <-] a' s' N. rewrite upd_ne; [done|]. intros [= -> ->]. congruence.
  Qed.
  Lemma dividing_undefined x m h z :
    z ∈ layers_model m -> 0 < cells z -> h (addr z) (Val Scores) = None ->
    dividing_score_model div x m h = None.
  Proof.
    unfold dividing_score_model. rewrite op1_model_layers. intros Hz C. revert h.
    induction Hz as [z l|z y l Hz IH]; intros h N; cbn.
    - replace (op1_layer _ _ z h) with (@None (mem F)); [done|].
      destruct z as [f|c|]; cbn in *; [| |lia];
        unfold dividing_score_fcl, dividing_score_cl, loop1; rewrite N.
      + destruct (f_in f * f_out f); [lia|done].
      + destruct (nsc c); [lia|done].
    - destruct (op1_layer _ _ y h) as [h1|] eqn:E1; cbn; [|done].
      apply IH; [done|].
      destruct y as [f|c|]; cbn in E1; [| |done]; by eapply loop1_keeps.
  Qed.

  (** ** averages *)
  Variable add : F -> F -> F.

  Lemma in_step_refl o : own_layers o -> in_step o o.
  Proof.
    intros ND i j x y Ex Ey E. eapply NoDup_lookup; [exact ND| |].
    - rewrite list_lookup_fmap, Ex. reflexivity.
    - rewrite list_lookup_fmap, Ey. cbn. by rewrite E.
  Qed.
  Lemma apart_in_step a o : apart a o -> in_step a o.
  Proof.
    intros A i j x y Ex Ey E. exfalso. eapply (A x y); [by eapply elem_of_list_lookup_2..|done].
  Qed.

  Lemma sum_all o ms h :
    Forall (fun m => same_shape m o /\ has_scores h m /\ apart m o) ms ->
    has_scores h o -> own_layers o ->
    exists h', each1 (fun m h => sum_score_model add o m o h) ms h = Some h' /\ has_scores h' o /\
      (forall i z n j, layers_model o !! i = Some z -> with_scores z n -> j < n ->
         exists r, score h z j = Some r /\
           score h' z j = Some (foldl (fun s m => match layers_model m !! i ≫= fun y => score h y j with
                                                  | Some v => add s v | None => s end) r ms) /\
           Forall (fun m => is_Some (layers_model m !! i ≫= fun y => score h y j)) ms) /\
      only_changes (entries ScoresOf (layers_model o)) h h'.
  Proof.
    revert h. induction ms as [|m ms IH]; intros h Hms Ho ND.
    - exists h. split; [done|]. split; [done|]. split; [|done].
      intros i z n j Ez W Hj. apply has_scores_ready in Ho. rewrite list.Forall_forall in Ho.
      destruct (Ho z) with (n := n) as (l & E & L); [by eapply elem_of_list_lookup_2|done|].
      destruct (lookup_lt_is_Some_2 l j) as [r Er]; [lia|]. exists r. unfold score. rewrite E. cbn. auto.
    - inversion Hms as [|? ? (Sm & Hm & Am) Hms']; subst.
      destruct (op2_model_ok (sum_score add) o m o h) as (h1 & E1 & (C1 & O1) & H1); try done.
      { by apply in_step_refl. }
      { by apply apart_in_step. }
      assert (Same : forall m' y s, apart m' o -> y ∈ layers_model m' -> h1 (addr y) s = h (addr y) s).
      { intros m' y s A Hy. apply O1. intros n X. unfold entries in X.
        apply elem_of_list_bind in X as (z & X & Hz). apply elem_of_list_fmap in X as (p & X & _).
        injection X as X _. by apply (A y z). }
      assert (SameS : forall m' i j, apart m' o ->
        (layers_model m' !! i ≫= fun y => score h1 y j) = (layers_model m' !! i ≫= fun y => score h y j)).
      { intros m' i j A. destruct (layers_model m' !! i) as [y|] eqn:Ey; cbn; [|done].
        unfold score. erewrite Same; [done|done|]. by eapply elem_of_list_lookup_2. }
      destruct (IH h1) as (h' & E' & H' & P & O'); [|done|done|].
      { eapply list.Forall_impl; [exact Hms'|]. intros m' (S' & H' & A'). split; [done|]. split; [|done].
        intros a s n X. destruct (H' a s n X) as (l & El & Ll). exists l. split; [|done].
        unfold entries in X. apply elem_of_list_bind in X as (y & X & Hy).
        apply elem_of_list_fmap in X as (p & X & _). injection X as -> _. by erewrite Same. }
      exists h'. split; [cbn; change (sum_score_model add o m o h) with (op2_model (sum_score add) o m o h);
        rewrite E1; exact E'|]. split; [done|]. split.
      + intros i z n j Ez W Hj. destruct (P i z n j Ez W Hj) as (r1 & Er1 & Eg & All).
        destruct (Forall2_lookup_r _ _ _ _ _ (same_shape_alike _ _ Sm) Ez) as (y & Ey & _).
        destruct (C1 i z y z n j Ez Ey Ez W Hj) as (p & q & r & Ep & Eq & Er & Es).
        assert (p = r) as -> by congruence. assert (r1 = add r q) as -> by (unfold sum_score in Es; congruence).
        exists r. split; [done|]. split.
        * rewrite Eg. cbn [foldl]. rewrite Ey. cbn [mbind option_bind]. rewrite Eq. f_equal.
          clear -Hms' SameS. generalize (add r q). induction Hms' as [|m' ms (_ & _ & A) _ IH]; intros s; [done|].
          cbn. rewrite SameS by done. apply IH.
        * constructor; [rewrite Ey; cbn; eauto|].
          clear -All Hms' SameS. induction Hms' as [|m' ms (_ & _ & A) _ IH]; [done|].
          inversion All; subst. constructor; [by rewrite <- SameS|by apply IH].
      + intros a s N. rewrite O' by done. by apply O1.
  Qed.

  Lemma average_ok x o ms h :
    Forall (fun m => same_shape m o /\ has_scores h m /\ apart m o) ms ->
    has_scores h o -> own_layers o ->
    (forall z, z ∈ layers_model o -> exists n, with_scores z n) ->
    exists h', avaraging_score_model add div x o ms h = Some h' /\
      (forall i z n j, layers_model o !! i = Some z -> with_scores z n -> j < n ->
         exists r vs, score h z j = Some r /\
           Forall2 (fun m v => (layers_model m !! i ≫= fun y => score h y j) = Some v) ms vs /\
           score h' z j = Some (div (foldl add r vs) x)) /\
      only_changes (entries ScoresOf (layers_model o)) h h'.
  Proof.
    intros Hms Ho ND A. destruct (sum_all o ms h Hms Ho ND) as (h1 & E1 & H1 & P & O1).
    destruct (dividing_model_ok x o h1 H1 ND A) as (h' & E' & P' & O').
    exists h'. split; [unfold avaraging_score_model; rewrite E1; exact E'|]. split.
    - intros i z n j Ez W Hj. destruct (P i z n j Ez W Hj) as (r & Er & Eg & All).
      destruct (P' z n j) as (r' & Er' & Eg'); [by eapply elem_of_list_lookup_2|done|done|].
      assert (exists vs, Forall2 (fun m v => (layers_model m !! i ≫= fun y => score h y j) = Some v) ms vs)
        as [vs V].
      { clear -All. induction All as [|m ms [v Ev] _ [vs IH]]; [by exists []|]. exists (v :: vs). by constructor. }
      exists r, vs. split; [done|]. split; [done|]. rewrite Eg'. rewrite Er' in Eg. injection Eg as ->.
      f_equal. f_equal. clear -V. revert r. induction V as [|m v ms vs E _ IH]; intros r; [done|].
      cbn. rewrite E. apply IH.
    - intros a s N. rewrite O' by done. by apply O1.
  Qed.

  (** ** with a vector *)
  Variable lt : F -> F -> bool.
  Variable real : F -> bool.
  Variable top : F.

  Lemma vector_dense a v o h : 0 < f_in o * f_out o ->
    compare_score_fcl_with_vector lt real top a v o h = Some h.
  Proof.
    intros H. unfold compare_score_fcl_with_vector. destruct (_ || _); [done|].
    rewrite decide_True by lia. done.
  Qed.
  Lemma vector_model_dense a v o h : m_cls a = [] -> m_rls a = [] ->
    length (m_fcls a) = length (m_fcls o) ->
    Forall (fun f => 0 < f_in f * f_out f) (m_fcls o) ->
    compare_score_model_with_vector lt real top a v o h = Some h.
  Proof.
    intros Ec Er L P. unfold compare_score_model_with_vector. rewrite Ec, Er.
    assert (exists v', along (size_fcl ScoresOf) (compare_score_fcl_with_vector lt real top)
      (m_fcls a) (m_fcls o) v h = Some (v', h)) as [v' ->].
    { revert v L. generalize (m_fcls a) as la. induction P as [|f lo Hf _ IH]; intros [|a' la] v L; try done.
      - by exists v.
      - cbn. rewrite vector_dense by done. cbn. apply IH. cbn in L. lia. }
    done.
  Qed.
  Lemma vector_conv a v o h n :
    with_scores (Conv a) n -> with_scores (Conv o) n -> ready h (Conv a) -> ready h (Conv o) ->
    n <= length v ->
    exists h', compare_score_cl_with_vector lt real top a v o h = Some h' /\
      (forall j, j < n -> exists p q r, score h (Conv a) j = Some p /\ v !! j = Some q /\
         score h (Conv o) j = Some r /\ score h' (Conv o) j = Some (compare_score lt real top p q r)) /\
      (forall a' s', (a', s') <> (c_at o, Val Scores) -> h' a' s' = h a' s').
  Proof.
    intros Wa Wo Ra Ro Hv. destruct (Ra n Wa) as (la & Ea & La). destruct (Ro n Wo) as (l & El & Ll).
    unfold compare_score_cl_with_vector. cbn [addr] in Ea, El.
    unfold with_scores in Wa, Wo. rewrite layout_conv in Wa, Wo.
    destruct (exists_edge_popup_stuff_cl a); [|done]. destruct (exists_edge_popup_stuff_cl o); [|done].
    injection Wa as Wa. injection Wo as Wo. cbn [negb orb]. rewrite decide_False by lia. rewrite Wa.
    assert (Hl : forall b, loop2 (compare_score lt real top) n (h (c_at a) (Val Scores)) (Some b) (c_at o) h =
      loop2 (compare_score lt real top) n (h (c_at a) (Val Scores)) (Some (take n b)) (c_at o) h).
    { intros b. unfold loop2. destruct n as [|n]; [done|]. rewrite Ea, El. rewrite take_take, Nat.min_id.
      rewrite take_length. destruct (decide _) as [D|D], (decide _) as [D'|D']; try done; lia. }
    rewrite Hl. rewrite Ea.
    destruct (loop2_ok (compare_score lt real top) n la (take n v) (c_at o) l h) as (h' & E' & P & _ & N);
      try done; [rewrite take_length; lia|].
    exists h'. split; [done|]. split; [|done].
    intros j Hj. destruct (P j Hj) as (p & q & r & l' & Ep & Eq & Er & El' & Eg).
    exists p, q, r. unfold score. cbn [addr]. rewrite Ea, El, El'. cbn.
    rewrite lookup_take in Eq by done. auto.
  Qed.
End proofs.
