(** Proofs about the flat-vector view of networks: the two directions. *)
From Verif Require Import Base BaseLemmas Flat_Model Flat_Spec Flat_Proofs.
Open Scope nat_scope.

Section two.
  Context {F : Type}.
  Implicit Types (h : mem F) (v : list F) (es : list entry).

  Lemma allocated_app h es1 es2 :
    allocated h (es1 ++ es2) <-> allocated h es1 /\ allocated h es2.
  Proof using.
    unfold allocated. split.
    - intros H. split; intros a s n I; apply (H a s n); rewrite elem_of_app; auto.
    - intros [H1 H2] a s n I. apply elem_of_app in I as [I|I]; eauto.
  Qed.

  Lemma allocated_cons h a s n es :
    allocated h ((a, (Some s, n)) :: es) <->
    (exists l, h a s = Some l /\ length l = n) /\ allocated h es.
  Proof using.
    change ((a, (Some s, n)) :: es) with ([(a, (Some s, n))] ++ es). rewrite allocated_app.
    assert (allocated h [(a, (Some s, n))] <-> exists l, h a s = Some l /\ length l = n) as ->; [|done].
    unfold allocated. split.
    - intros H. apply (H a s n). left.
    - intros H a' s' n' I. apply elem_of_list_singleton in I. by injection I as -> -> ->.
  Qed.

  Lemma allocated_gap h a n es :
    allocated h ((a, (None, n)) :: es) <-> allocated h es.
  Proof using.
    unfold allocated. split; intros H a' s' n' I.
    - apply (H a' s' n'). by right.
    - apply elem_of_cons in I as [E|I]; [done|eauto].
  Qed.

  Lemma extent_cons a p es : extent ((a, p) :: es) = snd p + extent es.
  Proof using. done. Qed.

  Lemma image_length h es : forall v, allocated h es -> extent es <= length v ->
    length (image h es v) = length v.
  Proof using.
    induction es as [|[a [[s|] n]] es IH]; intros v A L; [done| |];
      rewrite extent_cons in L; cbn [snd] in L; cbn [image].
    - apply allocated_cons in A as [(l & E & <-) A]. rewrite E. cbn [default from_option id].
      rewrite app_length, IH; [rewrite drop_length; lia|done|rewrite drop_length; lia].
    - apply allocated_gap in A. rewrite app_length, IH; [|done|rewrite drop_length; lia].
      rewrite take_length, drop_length. lia.
  Qed.

  Lemma image_drop h es : forall v, allocated h es -> extent es <= length v ->
    drop (extent es) (image h es v) = drop (extent es) v.
  Proof using.
    induction es as [|[a [[s|] n]] es IH]; intros v A L; [done| |];
      rewrite extent_cons in L |- *; cbn [snd] in L |- *; cbn [image].
    - apply allocated_cons in A as [(l & E & <-) A]. rewrite E. cbn [default from_option id].
      rewrite <- !drop_drop, drop_app. rewrite IH; [|done|rewrite drop_length; lia].
      by rewrite !drop_drop.
    - apply allocated_gap in A. rewrite <- (drop_drop (_ ++ _)).
      rewrite drop_app_alt by (rewrite take_length; lia).
      rewrite IH; [|done|rewrite drop_length; lia]. by rewrite !drop_drop.
  Qed.

  Lemma image_app h es1 : forall es2 v, allocated h es1 -> extent es1 <= length v ->
    image h (es1 ++ es2) v = take (extent es1) (image h es1 v) ++ image h es2 (drop (extent es1) v).
  Proof using.
    induction es1 as [|[a [[s|] n]] es1 IH]; intros es2 v A L; [done| |];
      rewrite extent_cons in L |- *; cbn [snd] in L |- *; cbn [image app].
    - apply allocated_cons in A as [(l & E & <-) A]. rewrite E. cbn [default from_option id].
      rewrite IH; [|done|rewrite drop_length; lia]. rewrite drop_drop.
      rewrite take_add_app by done. by rewrite <- app_assoc.
    - apply allocated_gap in A. rewrite IH; [|done|rewrite drop_length; lia]. rewrite drop_drop.
      rewrite take_add_app by (rewrite take_length; lia). by rewrite <- app_assoc.
  Qed.

  (** ** To the vector *)

  Definition stores h (c : nat -> list F -> option (list F)) es : Prop :=
    allocated h es -> forall o v, o + extent es <= length v ->
    c o v = Some (take o v ++ image h es (drop o v)).

  Lemma stores_nil h : stores h (fun _ v => Some v) [].
  Proof using. intros _ o v _. cbn. by rewrite take_drop. Qed.

  Lemma stores_app h c1 c2 es1 es2 : stores h c1 es1 -> stores h c2 es2 ->
    stores h (fun o v => v' ← c1 o v; c2 (o + extent es1) v') (es1 ++ es2).
  Proof using.
    intros H1 H2 A o v L. apply allocated_app in A as [A1 A2]. rewrite extent_app in L.
    rewrite (H1 A1 o v) by lia. cbn [mbind option_bind].
    assert (L1 : extent es1 <= length (drop o v)) by (rewrite drop_length; lia).
    rewrite (H2 A2).
    2: { rewrite app_length, take_length, image_length by done. rewrite drop_length. lia. }
    rewrite image_app by done.
    assert (LT : length (take o v) = o) by (rewrite take_length; lia).
    f_equal. rewrite take_add_app by done.
    rewrite <- drop_drop. rewrite drop_app_alt by done. rewrite image_drop by done.
    by rewrite app_assoc.
  Qed.

  Lemma stores_ext h c1 c2 es : (forall o v, c1 o v = c2 o v) -> stores h c1 es -> stores h c2 es.
  Proof using. intros E H A o v L. rewrite <- E. by apply H. Qed.

  Lemma run_out_place h a o ps : forall p v, allocated h (tag a ps) -> o + p + total ps <= length v ->
    run_out h a o (place p ps) v =
    Some (take (o + p) v ++ image h (tag a ps) (drop (o + p) v)).
  Proof using.
    induction ps as [|[[s|] n] ps IH]; intros p v A L; cbn [place run_out].
    - cbn. by rewrite take_drop.
    - unfold tag in A. rewrite fmap_cons in A. apply allocated_cons in A as [(l & E & <-) A].
      assert (L' : o + p + length l + total ps <= length v) by (unfold total in *; cbn in L; lia).
      unfold memcpy_out. rewrite E.
      rewrite decide_True by (unfold total in L'; lia). cbn [mbind option_bind].
      assert (LT : length (take (o + p) v) = o + p) by (rewrite take_length; lia).
      rewrite (take_ge l) by lia.
      rewrite IH; [|done|].
      2: { rewrite !app_length, drop_length, LT. lia. }
      f_equal. unfold tag. rewrite fmap_cons. cbn [image]. rewrite E. cbn [default from_option id].
      rewrite app_assoc. rewrite take_app_alt by (rewrite app_length; lia).
      rewrite drop_app_alt by (rewrite app_length; lia).
      rewrite <- app_assoc. by rewrite drop_drop.
    - unfold tag in A. rewrite fmap_cons in A. apply allocated_gap in A.
      assert (L' : o + p + n + total ps <= length v) by (unfold total in *; cbn in L; lia).
      rewrite IH by (try done; lia). f_equal. unfold tag. rewrite fmap_cons. cbn [image].
      rewrite drop_drop, app_assoc, take_take_drop. by rewrite Nat.add_assoc.
  Qed.

  Lemma stores_fcl k h f : stores h (fcl_to_vector k h f) (entries k [Dense f]).
  Proof using.
    intros A o v L. rewrite entries_one in *. rewrite extent_tag in L.
    unfold fcl_to_vector. rewrite <- fcl_out_place. rewrite (run_out_place h (addr (Dense f)));
      [|done|lia]. by rewrite !Nat.add_0_r.
  Qed.

  (** the guard of a convolutional layer *)
  Lemma guard_ok h c : allocated h (entries Derivs [Conv c]) ->
    cl_guard h c = c_conv c && bool_decide (derived (c_tr c)).
  Proof using.
    intros A. unfold cl_guard, exists_d_flags_cl. rewrite entries_one in A.
    destruct (c_conv c) eqn:C; [|by rewrite andb_false_r].
    cbn [andb]. rewrite andb_true_r.
    assert (D : bool_decide (c_tr c <> EdgePopup) && bool_decide (c_tr c <> OnlyFF) =
                bool_decide (derived (c_tr c))) by (by destruct (c_tr c)).
    rewrite D. destruct (bool_decide (derived (c_tr c))) eqn:B; [|done].
    apply bool_decide_eq_true in B. cbn [andb].
    apply bool_decide_eq_true_2.
    destruct (A (c_at c) (Grad Biases) (c_n c)) as (l & E & _); [|by exists l].
    unfold tag. apply elem_of_list_fmap. exists (Some (Grad Biases), c_n c). split; [done|].
    unfold layout. rewrite C, decide_True by done. unfold conv_params.
    apply elem_of_app. right. left.
  Qed.

  Lemma stores_cl k h c : stores h (cl_to_vector k h c) (entries k [Conv c]).
  Proof using.
    intros A o v L. pose proof A as A'. rewrite entries_one in A, L |- *. rewrite extent_tag in L.
    unfold cl_to_vector. rewrite <- cl_out_place.
    2: { intros ->. by apply guard_ok. }
    rewrite (run_out_place h (addr (Conv c))); [|done|lia]. by rewrite !Nat.add_0_r.
  Qed.

  Lemma stores_lstm k h l : stores h (lstm_to_vector k h l) (entries k [Lstmc l]).
  Proof using.
    intros A o v L. rewrite entries_one in *. rewrite extent_tag in L.
    unfold lstm_to_vector. rewrite <- lstm_out_place.
    rewrite (run_out_place h (addr (Lstmc l))); [|done|lia]. by rewrite !Nat.add_0_r.
  Qed.

  (** ** From the vector *)

  Definition loads v (c : nat -> mem F -> option (mem F)) es : Prop :=
    forall o h, NoDup (keys es) -> allocated h es -> o + extent es <= length v ->
    exists h', c o h = Some h' /\ holds h' es (drop o v) /\ only_changes es h h'.

  Lemma holds_app h es1 : forall es2 v,
    holds h (es1 ++ es2) v <-> holds h es1 v /\ holds h es2 (drop (extent es1) v).
  Proof using.
    induction es1 as [|[a [[s|] n]] es1 IH]; intros es2 v; cbn [app holds].
    - unfold extent, total. cbn. rewrite drop_0. tauto.
    - rewrite IH, drop_drop. unfold extent, total. cbn. tauto.
    - rewrite IH, drop_drop. unfold extent, total. cbn. tauto.
  Qed.

  Lemma holds_same h h' es : forall v,
    (forall a s n, (a, (Some s, n)) ∈ es -> h' a s = h a s) -> holds h es v -> holds h' es v.
  Proof using.
    induction es as [|[a [[s|] n]] es IH]; intros v E H; cbn [holds] in *; [done| |].
    - destruct H as [H1 H2]. split; [rewrite (E a s n) by left; done|].
      apply IH; [|done]. intros a' s' n' I. apply (E a' s' n'). by right.
    - apply IH; [|done]. intros a' s' n' I. apply (E a' s' n'). by right.
  Qed.

  Lemma allocated_same h h' es :
    (forall a s n, (a, (Some s, n)) ∈ es -> h' a s = h a s) -> allocated h es -> allocated h' es.
  Proof using. intros E A a s n I. rewrite (E a s n I). eauto. Qed.

  Lemma not_keys es a s : (a, s) ∉ keys es <-> forall n, (a, (Some s, n)) ∉ es.
  Proof using.
    rewrite elem_keys. split; [intros H n I; apply H; eauto|intros H (n & I); by apply (H n)].
  Qed.

  Lemma loads_nil v : loads v (fun _ h => Some h) [].
  Proof using. intros o h _ _ _. by exists h. Qed.

  Lemma loads_app v c1 c2 es1 es2 : loads v c1 es1 -> loads v c2 es2 ->
    loads v (fun o h => h' ← c1 o h; c2 (o + extent es1) h') (es1 ++ es2).
  Proof using.
    intros H1 H2 o h N A L. rewrite keys_app in N. apply list.NoDup_app in N as (N1 & D & N2).
    apply allocated_app in A as [A1 A2]. rewrite extent_app in L.
    destruct (H1 o h) as (h1 & -> & M1 & O1); [done|done|lia|]. cbn [mbind option_bind].
    assert (S2 : forall a s n, (a, (Some s, n)) ∈ es2 -> h1 a s = h a s).
    { intros a s n I. apply O1. apply not_keys. intros K. apply (D _ K). apply elem_keys. eauto. }
    destruct (H2 (o + extent es1) h1) as (h2 & -> & M2 & O2);
      [done|by eapply allocated_same|lia|].
    exists h2. split; [done|]. split.
    - apply holds_app. rewrite drop_drop. split; [|done].
      eapply holds_same; [|exact M1]. intros a s n I. apply O2. apply not_keys.
      apply D, elem_keys. eauto.
    - intros a s NI. rewrite O2, O1; [done| |]; intros n I; apply (NI n); rewrite elem_of_app; auto.
  Qed.

  Lemma loads_ext v c1 c2 es : (forall o h, c1 o h = c2 o h) -> loads v c1 es -> loads v c2 es.
  Proof using. intros E H o h N A L. rewrite <- E. by apply H. Qed.

  Lemma upd_same h a s l : upd h a s l a s = Some l.
  Proof using. unfold upd. by rewrite decide_True. Qed.
  Lemma upd_other h a s l a' s' : (a', s') <> (a, s) -> upd h a s l a' s' = h a' s'.
  Proof using. intros N. unfold upd. rewrite decide_False; [done|]. intros [-> ->]. done. Qed.

  Lemma run_in_place v a o ps : forall p h, NoDup (keys (tag a ps)) -> allocated h (tag a ps) ->
    o + p + total ps <= length v ->
    exists h', run_in v a o (place p ps) h = Some h' /\ holds h' (tag a ps) (drop (o + p) v) /\
               only_changes (tag a ps) h h'.
  Proof using.
    induction ps as [|[[s|] n] ps IH]; intros p h N A L; cbn [place run_in].
    - by exists h.
    - unfold tag in A, N. rewrite fmap_cons in A, N. apply allocated_cons in A as [(l & E & <-) A].
      assert (L' : o + p + length l + total ps <= length v) by (unfold total in *; cbn in L; lia).
      change (NoDup ((a, s) :: keys (tag a ps))) in N. apply list.NoDup_cons in N as [NI N].
      unfold memcpy_in. rewrite E. rewrite decide_True by lia. cbn [mbind option_bind].
      rewrite (drop_ge l) by lia. rewrite app_nil_r.
      set (h1 := upd h a s (take (length l) (drop (o + p) v))).
      destruct (IH (p + length l) h1) as (h' & -> & M & O); [done| |lia|].
      { eapply allocated_same; [|exact A]. intros a' s' n' I. apply upd_other.
        intros [= -> ->]. apply NI, elem_keys. eauto. }
      exists h'. split; [done|]. unfold tag. rewrite fmap_cons. cbn [holds]. split; [split|].
      + rewrite O; [apply upd_same|]. by apply not_keys.
      + rewrite drop_drop, <- Nat.add_assoc. done.
      + intros a' s' K. rewrite O; [|intros n' I; apply (K n'); by right].
        apply upd_other. intros [= -> ->]. apply (K (length l)). left.
    - unfold tag in A, N. rewrite fmap_cons in A, N. apply allocated_gap in A.
      assert (L' : o + p + n + total ps <= length v) by (unfold total in *; cbn in L; lia).
      destruct (IH (p + n) h) as (h' & -> & M & O); [done|done|lia|].
      exists h'. split; [done|]. unfold tag. rewrite fmap_cons. cbn [holds]. split.
      + rewrite drop_drop, <- Nat.add_assoc. done.
      + intros a' s' K. apply O. intros n' I. apply (K n'). by right.
  Qed.

  Lemma loads_fcl k v f : loads v (vector_to_fcl k v f) (entries k [Dense f]).
  Proof using.
    intros o h N A L. rewrite entries_one in *. rewrite extent_tag in L.
    unfold vector_to_fcl. rewrite fcl_in_out, <- fcl_out_place.
    destruct (run_in_place v (addr (Dense f)) o (layout k (Dense f)) 0 h) as (h' & E & M & O);
      [done|done|lia|]. rewrite Nat.add_0_r in M. by exists h'.
  Qed.

  Lemma loads_cl k v c : loads v (vector_to_cl k v c) (entries k [Conv c]).
  Proof using.
    intros o h N A L. pose proof A as A'. rewrite entries_one in N, A, L |- *. rewrite extent_tag in L.
    unfold vector_to_cl. rewrite cl_in_out, <- cl_out_place.
    2: { intros ->. by apply guard_ok. }
    destruct (run_in_place v (addr (Conv c)) o (layout k (Conv c)) 0 h) as (h' & E & M & O);
      [done|done|lia|]. rewrite Nat.add_0_r in M. by exists h'.
  Qed.

  Lemma loads_lstm k v l : loads v (vector_to_lstm k v l) (entries k [Lstmc l]).
  Proof using.
    intros o h N A L. rewrite entries_one in *. rewrite extent_tag in L.
    unfold vector_to_lstm. rewrite lstm_in_out, <- lstm_out_place.
    destruct (run_in_place v (addr (Lstmc l)) o (layout k (Lstmc l)) 0 h) as (h' & E & M & O);
      [done|done|lia|]. rewrite Nat.add_0_r in M. by exists h'.
  Qed.

  (** ** The arrays of a network are distinct *)

  Definition slots_of (ps : parts) : list slot := omap fst ps.

  Lemma keys_tag a ps : keys (tag a ps) = (fun s => (a, s)) <$> slots_of ps.
  Proof using.
    unfold keys, slots_of, tag. induction ps as [|[[s|] n] ps IH]; cbn; [done|by f_equal|done].
  Qed.

  Lemma slots_app ps1 ps2 : slots_of (ps1 ++ ps2) = slots_of ps1 ++ slots_of ps2.
  Proof using. apply omap_app. Qed.

  Lemma slots_seq (g : nat -> slot) q (l : list nat) :
    slots_of ((fun i => (Some (g i), q)) <$> l) = g <$> l.
  Proof using. unfold slots_of. induction l; cbn; [done|by f_equal]. Qed.

  Lemma slots_norms d n s :
    slots_of (seq s n ≫= fun i => [(Some (Val (Gamma i)), d); (Some (Val (Beta i)), d)]) =
    seq s n ≫= fun i => [Val (Gamma i); Val (Beta i)].
  Proof using. revert s. induction n as [|n IH]; intros s; [done|]. cbn. by rewrite <- IH. Qed.

  Lemma nodup_seq (g : nat -> slot) n s : (forall i j, g i = g j -> i = j) ->
    NoDup (g <$> seq s n).
  Proof using. intros I. apply (NoDup_fmap_2 g (Inj0 := I)). apply NoDup_seq. Qed.

  Lemma norms_in x n s : x ∈ (seq s n ≫= fun i => [Val (Gamma i); Val (Beta i)]) ->
    exists i, s <= i < s + n /\ (x = Val (Gamma i) \/ x = Val (Beta i)).
  Proof using.
    intros I. apply elem_of_list_bind in I as (i & I & M). apply elem_of_seq in M.
    exists i. split; [lia|].
    apply elem_of_cons in I as [->|I]; [auto|]. apply elem_of_list_singleton in I as ->. auto.
  Qed.

  Lemma nodup_norms n : forall s, NoDup (seq s n ≫= fun i => [Val (Gamma i); Val (Beta i)]).
  Proof using.
    induction n as [|n IH]; intros s; [constructor|]. cbn [seq mbind list_bind app].
    constructor; [|constructor; [|apply IH]].
    - intros I. apply elem_of_cons in I as [E|I]; [done|].
      apply norms_in in I as (i & R & [E|E]); [injection E; lia|done].
    - intros I. apply norms_in in I as (i & R & [E|E]); [done|injection E; lia].
  Qed.

  Lemma nodup_conv V c : V = Val \/ V = Grad -> NoDup (slots_of (conv_params V c)).
  Proof using.
    intros HV.
    assert (IV : forall x y, V x = V y -> x = y) by (destruct HV as [->| ->]; by intros x y [=]).
    unfold conv_params. rewrite !slots_app, slots_seq. apply list.NoDup_app. split_and!.
    - apply nodup_seq. intros i j E. apply IV in E. by injection E.
    - intros x Hx Hy. apply elem_of_list_fmap in Hx as (i & -> & _).
      apply elem_of_app in Hy as [Hy|Hy].
      + cbn in Hy. apply elem_of_list_singleton in Hy. by apply IV in Hy.
      + destruct (c_gn c); [|by apply elem_of_nil in Hy]. rewrite slots_app, !slots_seq in Hy.
        apply elem_of_app in Hy as [Hy|Hy]; apply elem_of_list_fmap in Hy as (j & Hy & _);
          by apply IV in Hy.
    - cbn [slots_of omap list_omap fst app]. constructor.
      + intros Hy. destruct (c_gn c); [|by apply elem_of_nil in Hy].
        rewrite slots_app, !slots_seq in Hy.
        apply elem_of_app in Hy as [Hy|Hy]; apply elem_of_list_fmap in Hy as (j & Hy & _);
          by apply IV in Hy.
      + destruct (c_gn c); [|constructor]. rewrite slots_app, !slots_seq.
        apply list.NoDup_app. split_and!.
        * apply nodup_seq. intros i j E. apply IV in E. by injection E.
        * intros x Hx Hy. apply elem_of_list_fmap in Hx as (i & -> & _).
          apply elem_of_list_fmap in Hy as (j & Hy & _). by apply IV in Hy.
        * apply nodup_seq. intros i j E. apply IV in E. by injection E.
  Qed.

  Lemma nodup_dense V f : V = Val \/ V = Grad -> NoDup (slots_of (dense_params V f)).
  Proof using.
    intros [->| ->]; unfold dense_params; destruct (f_noisy f), (f_ln f);
      apply (bool_decide_unpack _); vm_compute; exact I.
  Qed.

  Lemma nodup_layout k l : NoDup (slots_of (layout k l)).
  Proof using.
    destruct l as [f|c|l]; cbn [layout].
    - destruct (decide _); [constructor|]. destruct k.
      + apply nodup_dense. auto.
      + destruct (f_noisy f), (f_ln f); apply (bool_decide_unpack _); vm_compute; exact I.
      + destruct (decide _); repeat constructor; by apply not_elem_of_nil.
      + destruct (decide _); repeat constructor; by apply not_elem_of_nil.
      + destruct (decide _); [apply nodup_dense; auto|constructor].
    - destruct (c_conv c); [|constructor]. destruct k.
      + apply nodup_conv. auto.
      + assert (H := nodup_conv Val c (or_introl eq_refl)). revert H. unfold conv_params.
        rewrite !slots_app. intros H. apply list.NoDup_app in H as (N1 & D & N2).
        apply list.NoDup_app in N2 as (_ & _ & N2). apply list.NoDup_app. split_and!; [done| |done].
        intros x Hx Hy. apply (D x Hx). apply elem_of_app. auto.
      + destruct (decide _); repeat constructor; by apply not_elem_of_nil.
      + destruct (decide _); repeat constructor; by apply not_elem_of_nil.
      + destruct (decide _); [apply nodup_conv; auto|constructor].
    - assert (NN : NoDup (slots_of (lstm_norms l))).
      { unfold lstm_norms. destruct (l_gn l); [|constructor]. rewrite slots_norms. apply nodup_norms. }
      assert (IN : forall x, x ∈ slots_of (lstm_norms l) ->
                exists i, x = Val (Gamma i) \/ x = Val (Beta i)).
      { unfold lstm_norms. intros x Hx. destruct (l_gn l); [|by apply elem_of_nil in Hx].
        rewrite slots_norms in Hx. apply norms_in in Hx as (i & _ & Hx). eauto. }
      destruct k; [| | |constructor|constructor].
      + rewrite app_assoc, slots_app. apply list.NoDup_app. split_and!; [|intros x Hx Hy|done].
        * unfold lstm_gates. rewrite !slots_app, !slots_seq.
          apply (bool_decide_unpack _). vm_compute. exact I.
        * apply IN in Hy as (i & Hy). unfold lstm_gates in Hx.
          rewrite !slots_app, !slots_seq, !elem_of_app, !elem_of_list_fmap in Hx.
          destruct Hx as [[(j & -> & _)|(j & -> & _)]|(j & -> & _)], Hy; done.
      + rewrite slots_app. apply list.NoDup_app. split_and!; [|intros x Hx Hy|done].
        * unfold lstm_gates. rewrite !slots_app, !slots_seq.
          apply (bool_decide_unpack _). vm_compute. exact I.
        * apply IN in Hy as (i & Hy). unfold lstm_gates in Hx.
          rewrite !slots_app, !slots_seq, !elem_of_app, !elem_of_list_fmap in Hx.
          destruct Hx as [(j & -> & _)|(j & -> & _)], Hy; done.
      + rewrite !slots_app, !slots_seq. apply (bool_decide_unpack _). vm_compute. exact I.
  Qed.

  Lemma keys_addr k ls a s : (a, s) ∈ keys (entries k ls) -> a ∈ addr <$> ls.
  Proof using.
    intros I. apply elem_keys in I as (n & I). unfold entries in I.
    apply elem_of_list_bind in I as (l & I & M). apply elem_of_list_fmap in I as (p & E & _).
    injection E as -> _. apply elem_of_list_fmap. eauto.
  Qed.

  Lemma nodup_entries k ls : NoDup (addr <$> ls) -> NoDup (keys (entries k ls)).
  Proof using.
    induction ls as [|l ls IH]; intros N; [constructor|].
    rewrite fmap_cons in N. apply list.NoDup_cons in N as [NI N].
    change (l :: ls) with ([l] ++ ls). rewrite entries_app, keys_app. apply list.NoDup_app.
    split_and!; [| |by apply IH].
    - rewrite entries_one, keys_tag.
      assert (J : Inj (=) (=) (fun s : slot => (addr l, s))) by (intros x y E; by injection E).
      apply (NoDup_fmap_2 _ (Inj0 := J)). apply nodup_layout.
    - intros [a s] H1 H2. apply keys_addr in H1, H2. cbn in H1.
      apply elem_of_list_singleton in H1 as ->. done.
  Qed.

  (** ** Networks without gaps *)

  Lemma gapless_layout k l p : gapless k -> p ∈ layout k l -> is_Some (fst p).
  Proof using.
    intros G I. unfold gapless in G.
    assert (P : forall V c, p ∈ conv_params V c -> is_Some (fst p)).
    { intros V c H. unfold conv_params in H. rewrite !elem_of_app, elem_of_list_fmap in H.
      destruct H as [(j & -> & _)|[H|H]]; [eauto| |].
      - apply elem_of_list_singleton in H as ->. eauto.
      - destruct (c_gn c); [|by apply elem_of_nil in H].
        rewrite elem_of_app, !elem_of_list_fmap in H.
        destruct H as [(j & -> & _)|(j & -> & _)]; eauto. }
    assert (Q : forall ps, Forall (fun p => is_Some (fst p)) ps -> p ∈ ps -> is_Some (fst p)).
    { intros ps H1 H2. rewrite list.Forall_forall in H1. by apply H1. }
    destruct l as [f|c|l]; cbn [layout] in I.
    - destruct (decide _); [by apply elem_of_nil in I|].
      destruct k; [| | | |done]; revert I; apply Q.
      + unfold dense_params. destruct (f_noisy f), (f_ln f); cbn [app]; repeat constructor; cbn; eauto.
      + destruct (f_noisy f), (f_ln f); cbn [app]; repeat constructor; cbn; eauto.
      + destruct (decide _); repeat constructor; cbn; eauto.
      + destruct (decide _); repeat constructor; cbn; eauto.
    - destruct (c_conv c); [|by apply elem_of_nil in I]. destruct k; [by eapply P| | | |done].
      + apply (P Val c). unfold conv_params. rewrite !elem_of_app in *. tauto.
      + revert I. apply Q. destruct (decide _); repeat constructor; cbn; eauto.
      + revert I. apply Q. destruct (decide _); repeat constructor; cbn; eauto.
    - assert (NN : Forall (fun p => is_Some (fst p)) (lstm_norms l)).
      { unfold lstm_norms. destruct (l_gn l); [|constructor].
        apply list.Forall_forall. intros x Hx. apply elem_of_list_bind in Hx as (i & Hx & _).
        apply elem_of_cons in Hx as [->|Hx]; [cbn; eauto|].
        apply elem_of_list_singleton in Hx as ->. cbn. eauto. }
      revert I. apply Q. unfold lstm_gates.
      destruct k; rewrite ?Forall_app; split_and?; try done;
        cbn [fmap list_fmap]; repeat constructor; cbn; eauto.
  Qed.

  Lemma image_flat h es : forall v, allocated h es ->
    (forall e, e ∈ es -> is_Some (fst (snd e))) -> extent es <= length v ->
    image h es v = flat h es ++ drop (extent es) v.
  Proof using.
    induction es as [|[a [[s|] n]] es IH]; intros v A G L; [done| |].
    - rewrite extent_cons in *. cbn [snd] in *. apply allocated_cons in A as [_ A]. cbn [image flat mbind list_bind].
      rewrite IH; [|done|intros e I; apply G; by right|rewrite drop_length; lia].
      unfold flat. rewrite drop_drop, app_assoc. done.
    - destruct (G (a, (None, n))) as [x Hx]; [left|done].
  Qed.

  Lemma flat_length h es : allocated h es ->
    (forall e, e ∈ es -> is_Some (fst (snd e))) -> length (flat h es) = extent es.
  Proof using.
    induction es as [|[a [[s|] n]] es IH]; intros A G; [done| |].
    - rewrite extent_cons. apply allocated_cons in A as [(l & E & <-) A]. cbn [flat mbind list_bind].
      rewrite E, app_length. cbn. f_equal. apply IH; [done|]. intros e I. apply G. by right.
    - destruct (G (a, (None, n))) as [x Hx]; [left|done].
  Qed.

  Lemma gapless_entries k ls e : gapless k -> e ∈ entries k ls -> is_Some (fst (snd e)).
  Proof using.
    intros G I. unfold entries in I. apply elem_of_list_bind in I as (l & I & _).
    apply elem_of_list_fmap in I as (p & -> & I). cbn. by eapply gapless_layout.
  Qed.

  (** ** Storing and loading again *)

  Lemma holds_image h es : forall v, allocated h es -> extent es <= length v ->
    holds h es (image h es v).
  Proof using.
    induction es as [|[a [[s|] n]] es IH]; intros v A L; cbn [holds image]; [done| |];
      rewrite extent_cons in L; cbn [snd] in L.
    - apply allocated_cons in A as [(l & E & <-) A]. rewrite E. cbn [default from_option id].
      rewrite take_app, drop_app. split; [done|]. apply IH; [done|]. rewrite drop_length. lia.
    - apply allocated_gap in A. rewrite drop_app_alt by (rewrite take_length; lia).
      apply IH; [done|]. rewrite drop_length. lia.
  Qed.

  Lemma image_holds h es : forall v, holds h es v -> image h es v = v.
  Proof using.
    induction es as [|[a [[s|] n]] es IH]; intros v H; cbn [holds image] in *; [done| |].
    - destruct H as [-> H]. rewrite IH by done. cbn. by rewrite take_drop.
    - rewrite IH by done. by rewrite take_drop.
  Qed.

  Lemma holds_allocated h es : forall v, holds h es v -> extent es <= length v -> allocated h es.
  Proof using.
    induction es as [|[a [[s|] n]] es IH]; intros v H L.
    - intros a s n I. by apply elem_of_nil in I.
    - rewrite extent_cons in L. cbn [snd holds] in *. destruct H as [E H]. apply allocated_cons. split.
      + exists (take n v). split; [done|]. rewrite take_length. lia.
      + eapply IH; [done|]. rewrite drop_length. lia.
    - rewrite extent_cons in L. cbn [snd holds] in *. apply allocated_gap. eapply IH; [done|].
      rewrite drop_length. lia.
  Qed.

  (** the same vector in two networks with the same layout *)
  Lemma holds_transfer k h h' ls : forall ls' v, layout k <$> ls = layout k <$> ls' ->
    holds h (entries k ls) v -> holds h' (entries k ls') v ->
    forall i l l' s n, ls !! i = Some l -> ls' !! i = Some l' -> (Some s, n) ∈ layout k l ->
    h' (addr l') s = h (addr l) s.
  Proof using.
    assert (One : forall a a' ps v, holds h (tag a ps) v -> holds h' (tag a' ps) v ->
      forall s n, (Some s, n) ∈ ps -> h' a' s = h a s).
    { intros a a' ps. induction ps as [|[[s0|] n0] ps IH]; intros v H H' s n I;
        cbn [tag fmap list_fmap holds] in H, H'.
      - by apply elem_of_nil in I.
      - destruct H as [E H], H' as [E' H']. apply elem_of_cons in I as [[= -> ->]|I].
        + by rewrite E, E'.
        + by eapply IH.
      - apply elem_of_cons in I as [E|I]; [done|]. by eapply IH. }
    induction ls as [|l ls IH]; intros ls' v E H H' i l0 l0' s n Li Li' I; [done|].
    destruct ls' as [|l' ls']; [done|]. rewrite !fmap_cons in E. injection E as E1 E2.
    change (l :: ls) with ([l] ++ ls) in H. change (l' :: ls') with ([l'] ++ ls') in H'.
    rewrite entries_app, holds_app in H, H'. destruct H as [Ha Hb], H' as [Ha' Hb'].
    rewrite entries_one in Ha, Ha', Hb, Hb'. rewrite !extent_tag in Hb, Hb'.
    rewrite <- E1 in Ha', Hb'.
    destruct i as [|i]; cbn in Li, Li'.
    - injection Li as <-. injection Li' as <-. by eapply One.
    - eapply (IH ls'); eauto.
  Qed.
End two.
