(** Proofs about the flat-vector view of networks: every kind of network, and networks with arrays
    that are not allocated. *)
From Verif Require Import Base BaseLemmas Flat_Model Flat_Spec Flat_Proofs Flat2_Proofs.
Open Scope nat_scope.

Lemma extent_net k n : extent (entries k (layers n)) = size k n.
Proof.
  destruct n; cbn [layers size].
  - apply extent_fcl. - apply extent_cl. - apply extent_rl. - apply extent_lstm.
  - apply extent_model. - apply extent_rmodel. - apply extent_dueling. - apply extent_zero.
Qed.

(** every property of copies that composes holds for the networks when it holds for the layers *)
Lemma net_P {S F} (P : (nat -> S -> option S) -> list entry -> Prop) k
    (cf : fcl -> nat -> S -> option S) cc cr
    (copy : net -> nat -> S -> option S) :
  P (fun _ s => Some s) [] ->
  (forall c1 c2 es1 es2, P c1 es1 -> P c2 es2 ->
    P (fun o s => s' ← c1 o s; c2 (o + extent es1) s') (es1 ++ es2)) ->
  (forall c1 c2 es, (forall o s, c1 o s = c2 o s) -> P c1 es -> P c2 es) ->
  (forall f, P (cf f) (entries k [Dense f])) ->
  (forall c, P (cc c) (entries k [Conv c])) ->
  (forall l, P (cr l) (entries k [Lstmc l])) ->
  (forall n, copy n = match n with
    | OfFcl f => cf f | OfCl c => cc c | OfRl r => copy_rl k cc r | OfLstm l => cr l
    | OfModel m => copy_model k cf cc m | OfRmodel m => copy_rmodel k cr m
    | OfDueling d => copy_dueling k cf cc d | OfZero z => copy_zero k cf cc cr z end) ->
  F -> forall n, P (copy n) (entries k (layers n)).
Proof.
  intros N A X HF HC HL E _ n. rewrite E. destruct n as [f|c|r|l|m|m|d|z]; cbn [layers]; auto.
  - fold (layers_rl r). by apply rl_P. - by apply model_P. - by apply rmodel_P. - by apply dueling_P. - by apply zero_P.
Qed.

Global Instance kind_dec : EqDecision kind. Proof. solve_decision. Defined.

Section nets.
  Context {F : Type}.
  Implicit Types (h : mem F) (v : list F).

  Lemma stores_net k h n : stores h (store k h n) (entries k (layers n)).
  Proof using.
    apply (net_P (F := unit) (stores h) k (fcl_to_vector k h) (cl_to_vector k h) (lstm_to_vector k h)
             (store k h)).
    - apply stores_nil. - apply stores_app. - apply stores_ext. - apply stores_fcl.
    - apply stores_cl. - apply stores_lstm. - by intros []. - exact tt.
  Qed.

  Lemma loads_net k v n : loads v (load k v n) (entries k (layers n)).
  Proof using.
    apply (net_P (F := unit) (loads v) k (vector_to_fcl k v) (vector_to_cl k v) (vector_to_lstm k v)
             (load k v)).
    - apply loads_nil. - apply loads_app. - apply loads_ext. - apply loads_fcl.
    - apply loads_cl. - apply loads_lstm. - by intros []. - exact tt.
  Qed.

  (** ** Arrays that are not allocated *)

  Definition reads h (Q : slot -> Prop) (c : nat -> list F -> option (list F)) (es : list entry) :=
    forall o v v', c o v = Some v' -> forall a s n, (a, (Some s, n)) ∈ es -> Q s -> h a s <> None.

  Definition writes (Q : slot -> Prop) (c : nat -> mem F -> option (mem F)) (es : list entry) :=
    forall o h h', c o h = Some h' ->
    (forall a s, h' a s = None <-> h a s = None) /\
    forall a s n, (a, (Some s, n)) ∈ es -> Q s -> h a s <> None.

  Lemma reads_nil h Q : reads h Q (fun _ v => Some v) [].
  Proof using. intros o v v' _ a s n I. by apply elem_of_nil in I. Qed.
  Lemma reads_app h Q c1 c2 es1 es2 : reads h Q c1 es1 -> reads h Q c2 es2 ->
    reads h Q (fun o v => v' ← c1 o v; c2 (o + extent es1) v') (es1 ++ es2).
  Proof using.
    intros H1 H2 o v v' E a s n I. destruct (c1 o v) as [v1|] eqn:E1; [|done]. cbn in E.
    apply elem_of_app in I as [I|I]; eauto.
  Qed.
  Lemma reads_ext h Q c1 c2 es : (forall o v, c1 o v = c2 o v) -> reads h Q c1 es -> reads h Q c2 es.
  Proof using. intros E H o v v' E'. rewrite <- E in E'. eauto. Qed.

  Lemma writes_nil Q : writes Q (fun _ h => Some h) [].
  Proof using.
    intros o h h' [= ->]. split; [done|]. intros a s n I. by apply elem_of_nil in I.
  Qed.
  Lemma writes_app Q c1 c2 es1 es2 : writes Q c1 es1 -> writes Q c2 es2 ->
    writes Q (fun o h => h' ← c1 o h; c2 (o + extent es1) h') (es1 ++ es2).
  Proof using.
    intros H1 H2 o h h' E. destruct (c1 o h) as [h1|] eqn:E1; [|done]. cbn in E.
    apply H1 in E1 as [K1 N1]. apply H2 in E as [K2 N2]. split.
    - intros a s. by rewrite K2.
    - intros a s n I. apply elem_of_app in I as [I|I]; [eauto|]. rewrite <- K1. eauto.
  Qed.
  Lemma writes_ext Q c1 c2 es : (forall o h, c1 o h = c2 o h) -> writes Q c1 es -> writes Q c2 es.
  Proof using. intros E H o h h' E'. rewrite <- E in E'. eauto. Qed.

  Lemma run_out_reads h a o ps : forall p v v', run_out h a o (place p ps) v = Some v' ->
    forall s n, (Some s, n) ∈ ps -> h a s <> None.
  Proof using.
    induction ps as [|[[s0|] n0] ps IH]; intros p v v' E s n I; cbn [place run_out] in E.
    - by apply elem_of_nil in I.
    - destruct (memcpy_out h a s0 (o + p) n0 v) as [v1|] eqn:E1; [|done]. cbn in E.
      apply elem_of_cons in I as [[= -> ->]|I]; [|eauto].
      unfold memcpy_out in E1. by destruct (h a s0).
    - apply elem_of_cons in I as [?|I]; [done|eauto].
  Qed.

  Lemma run_in_writes v a o ps : forall p h h', run_in v a o (place p ps) h = Some h' ->
    (forall a s, h' a s = None <-> h a s = None) /\
    forall s n, (Some s, n) ∈ ps -> h a s <> None.
  Proof using.
    induction ps as [|[[s0|] n0] ps IH]; intros p h h' E; cbn [place run_in] in E.
    - injection E as ->. split; [done|]. intros s n I. by apply elem_of_nil in I.
    - destruct (memcpy_in v a s0 (o + p) n0 h) as [h1|] eqn:E1; [|done]. cbn in E.
      apply IH in E as [K N].
      assert (A : h a s0 <> None) by (unfold memcpy_in in E1; by destruct (h a s0)).
      assert (K1 : forall a s, h1 a s = None <-> h a s = None).
      { intros a' s'. unfold memcpy_in in E1. destruct (h a s0) as [l|] eqn:El; [|done].
        destruct (decide _); [|done]. injection E1 as <-. unfold upd.
        destruct (decide (a' = a /\ s' = s0)) as [[-> ->]|]; [|done]. by rewrite El. }
      split.
      + intros a' s'. by rewrite K.
      + intros s n I. apply elem_of_cons in I as [[= -> ->]|I]; [done|]. rewrite <- K1. eauto.
    - apply IH in E as [K N]. split; [done|].
      intros s n I. apply elem_of_cons in I as [?|I]; [done|eauto].
  Qed.

  Lemma elem_tag a b ps s n : (b, (Some s, n)) ∈ tag a ps -> b = a /\ (Some s, n) ∈ ps.
  Proof using. intros I. apply elem_of_list_fmap in I as (p & [= -> ->] & I). done. Qed.

  (** which arrays must be allocated: all of those of the layout, but the derivatives of a
      convolutional layer are looked at only when they are there *)
  Definition needed (k : kind) (s : slot) : Prop := k <> Derivs \/ s = Grad Weights.

  Lemma conv_no_weights c : forall n, (Some (Grad Weights), n) ∉ conv_params Grad c.
  Proof using.
    intros n I. unfold conv_params in I. rewrite !elem_of_app, elem_of_list_fmap in I.
    destruct I as [(j & E & _)|[I|I]]; [done| |].
    - by apply elem_of_list_singleton in I.
    - destruct (c_gn c); [|by apply elem_of_nil in I].
      rewrite elem_of_app, !elem_of_list_fmap in I. by destruct I as [(j & E & _)|(j & E & _)].
  Qed.

  Lemma reads_net k h n : reads h (needed k) (store k h n) (entries k (layers n)).
  Proof using.
    apply (net_P (F := unit) (reads h (needed k)) k (fcl_to_vector k h) (cl_to_vector k h)
             (lstm_to_vector k h) (store k h)).
    - apply reads_nil. - apply reads_app. - apply reads_ext.
    - intros f o v v' E a s m I _. rewrite entries_one in I. apply elem_tag in I as [-> I].
      unfold fcl_to_vector in E. rewrite <- fcl_out_place in E. by eapply run_out_reads.
    - intros c o v v' E a s m I Q. rewrite entries_one in I. apply elem_tag in I as [-> I].
      destruct (decide (k = Derivs)) as [->|Nk].
      + destruct Q as [Q| ->]; [done|]. cbn [layout] in I.
        destruct (c_conv c); [|by apply elem_of_nil in I].
        destruct (decide _); [by apply conv_no_weights in I|].
        by apply elem_of_list_singleton in I.
      + unfold cl_to_vector in E. rewrite <- cl_out_place in E by done. by eapply run_out_reads.
    - intros l o v v' E a s m I _. rewrite entries_one in I. apply elem_tag in I as [-> I].
      unfold lstm_to_vector in E. rewrite <- lstm_out_place in E. by eapply run_out_reads.
    - by intros []. - exact tt.
  Qed.

  Lemma writes_net k v n : writes (needed k) (load k v n) (entries k (layers n)).
  Proof using.
    apply (net_P (F := unit) (writes (needed k)) k (vector_to_fcl k v) (vector_to_cl k v)
             (vector_to_lstm k v) (load k v)).
    - apply writes_nil. - apply writes_app. - apply writes_ext.
    - intros f o h h' E. unfold vector_to_fcl in E. rewrite fcl_in_out, <- fcl_out_place in E.
      apply run_in_writes in E as [K N]. split; [done|]. intros a s m I _.
      rewrite entries_one in I. apply elem_tag in I as [-> I]. by eapply N.
    - intros c o h h' E. unfold vector_to_cl in E. rewrite cl_in_out in E.
      destruct (decide (k = Derivs)) as [->|Nk].
      + assert (H : exists ps, cl_out Derivs (cl_guard h c) c = place 0 ps).
        { cbn [cl_out]. destruct (cl_guard h c); [|by exists []].
          exists (conv_params Grad c). by rewrite conv_place. }
        destruct H as (ps & H). rewrite H in E. apply run_in_writes in E as [K N].
        split; [done|]. intros a s m I Q. rewrite entries_one in I. apply elem_tag in I as [-> I].
        destruct Q as [Q| ->]; [done|]. cbn [layout] in I.
        destruct (c_conv c); [|by apply elem_of_nil in I].
        destruct (decide _); [by apply conv_no_weights in I|].
        by apply elem_of_list_singleton in I.
      + rewrite <- cl_out_place in E by done. apply run_in_writes in E as [K N].
        split; [done|]. intros a s m I _. rewrite entries_one in I. apply elem_tag in I as [-> I].
        by eapply N.
    - intros l o h h' E. unfold vector_to_lstm in E. rewrite lstm_in_out, <- lstm_out_place in E.
      apply run_in_writes in E as [K N]. split; [done|]. intros a s m I _.
      rewrite entries_one in I. apply elem_tag in I as [-> I]. by eapply N.
    - by intros []. - exact tt.
  Qed.

  Lemma store_null k h n a s m o v :
    (a, (Some s, m)) ∈ entries k (layers n) -> needed k s -> h a s = None ->
    store k h n o v = None.
  Proof using.
    intros I Q N. destruct (store k h n o v) as [v'|] eqn:E; [|done].
    by destruct (reads_net k h n o v v' E a s m I Q).
  Qed.
  Lemma load_null k h n a s m o v :
    (a, (Some s, m)) ∈ entries k (layers n) -> needed k s -> h a s = None ->
    load k v n o h = None.
  Proof using.
    intros I Q N. destruct (load k v n o h) as [h'|] eqn:E; [|done].
    destruct (writes_net k v n o h h' E) as [_ K]. by destruct (K a s m I Q).
  Qed.

  Lemma elem_entries k ls l s m : l ∈ ls -> (Some s, m) ∈ layout k l ->
    (addr l, (Some s, m)) ∈ entries k ls.
  Proof using.
    intros I J. unfold entries. apply elem_of_list_bind. exists l. split; [|done].
    apply elem_of_list_fmap. by exists (Some s, m).
  Qed.
End nets.

(** ** The index of the score vector *)

Definition sc (l : layer) : nat := total (layout ScoresOf l).

Fixpoint seekl (s : nat) (ls : list layer) (sum : nat) : nat + nat :=
  match ls with
  | [] => inl sum
  | l :: ls => if decide (s < sum + sc l) then inr (sum + sc l) else seekl s ls (sum + sc l)
  end.

Lemma seekl_app s ls1 : forall ls2 sum,
  seekl s (ls1 ++ ls2) sum = andthen (seekl s ls1 sum) (seekl s ls2).
Proof.
  induction ls1 as [|l ls1 IH]; intros ls2 sum; [done|]. cbn [app seekl].
  destruct (decide _); [done|apply IH].
Qed.

Lemma seek_seekl {L} (size : L -> nat) (g : L -> layer) s (ls : list L) : forall sum,
  (forall l, sc (g l) = size l) -> seek size s ls sum = seekl s (g <$> ls) sum.
Proof.
  induction ls as [|l ls IH]; intros sum E; [done|]. cbn [seek seekl fmap list_fmap].
  rewrite E. destruct (decide _); [done|]. by apply IH.
Qed.

Lemma seek_model_l s m sum : seek_model s m sum = seekl s (layers_model m) sum.
Proof.
  unfold seek_model, layers_model. rewrite !seekl_app.
  rewrite (seek_seekl _ Dense) by (intros; apply fcl_total).
  destruct (seekl s (Dense <$> m_fcls m) sum) as [x|x]; [|done]. cbn [andthen].
  rewrite seekl_app. rewrite (seek_seekl _ Conv) by (intros; apply cl_total).
  destruct (seekl s (Conv <$> m_cls m) x) as [y|y]; [|done]. cbn [andthen].
  generalize y. induction (m_rls m) as [|r rs IH]; intros z; [done|].
  cbn [foldl mbind list_bind andthen]. rewrite seekl_app.
  rewrite (seek_seekl _ Conv) by (intros; apply cl_total).
  destruct (seekl s (Conv <$> r_cls r) z) as [w|w]; [apply IH|].
  cbn [andthen]. clear. induction rs; [done|]. cbn. done.
Qed.

Lemma index_seekl d s : get_array_size_scores_index d s =
  match seekl s (layers_dueling d) 0 with inl x | inr x => x end.
Proof.
  unfold get_array_size_scores_index, layers_dueling. rewrite !seekl_app, !seek_model_l.
  destruct (seekl s (layers_model (d_shared d)) 0); [|done]. cbn [andthen].
  rewrite seekl_app, seek_model_l.
  destruct (seekl s (layers_model (d_vhid d)) _); [|done]. cbn [andthen].
  rewrite seekl_app, seek_model_l.
  destruct (seekl s (layers_model (d_vlin d)) _); [|done]. cbn [andthen].
  rewrite seekl_app, seek_model_l.
  destruct (seekl s (layers_model (d_ahid d)) _); [|done]. cbn [andthen].
  by rewrite seek_model_l.
Qed.

Lemma sc_extent ls : extent (entries ScoresOf ls) = foldr (fun l n => sc l + n) 0 ls.
Proof.
  induction ls as [|l ls IH]; [done|]. change (l :: ls) with ([l] ++ ls) at 1.
  rewrite entries_app, extent_app, entries_one, extent_tag. cbn. by rewrite IH.
Qed.

Lemma seekl_spec s ls : forall sum, sum <= s ->
  exists i, i <= length ls /\
    match seekl s ls sum with inl x | inr x => x end =
      sum + extent (entries ScoresOf (take i ls)) /\
    (forall j, j < i -> sum + extent (entries ScoresOf (take j ls)) <= s) /\
    (s < sum + extent (entries ScoresOf ls) ->
     s < sum + extent (entries ScoresOf (take i ls))) /\
    (sum + extent (entries ScoresOf ls) <= s -> i = length ls).
Proof.
  induction ls as [|l ls IH]; intros sum Hs.
  - exists 0. cbn. unfold extent, total. cbn. split_and!; [lia..| |]; intros; [lia|done].
  - cbn [seekl]. destruct (decide (s < sum + sc l)) as [D|D].
    + exists 1. cbn [length]. split_and!; [lia| | | |].
      * rewrite sc_extent. cbn [take foldr]; rewrite ?take_0; cbn [foldr]; lia.
      * intros j Hj. replace j with 0 by lia. unfold extent, total. cbn. lia.
      * rewrite !sc_extent. cbn [take foldr]; rewrite ?take_0; cbn [foldr]; lia.
      * rewrite !sc_extent. cbn [take foldr]; rewrite ?take_0; cbn [foldr]; lia.
    + destruct (IH (sum + sc l)) as (i & Hi & E & B & T & Z); [lia|].
      exists (S i). cbn [length]. split_and!; [lia| | | |].
      * rewrite E, !sc_extent. cbn [take foldr]; rewrite ?take_0; cbn [foldr]; lia.
      * intros [|j] Hj; [unfold extent, total; cbn; lia|]. specialize (B j). rewrite !sc_extent in *.
        cbn [take foldr]; rewrite ?take_0; cbn [foldr]; lia.
      * intros Hl. rewrite !sc_extent in *. cbn [take foldr] in *. lia.
      * intros Hl. f_equal. apply Z. rewrite !sc_extent in *. cbn [take foldr] in *. lia.
Qed.
