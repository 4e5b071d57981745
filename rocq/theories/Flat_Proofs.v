(** Proofs about the flat-vector view of networks. *)
From Verif Require Import Base BaseLemmas Flat_Model Flat_Spec.
Open Scope nat_scope.

(** ** The places of the arrays of one layer *)

Fixpoint place (p : nat) (ps : parts) : list seg :=
  match ps with
  | [] => []
  | (Some s, n) :: ps => (s, p, n) :: place (p + n) ps
  | (None, n) :: ps => place (p + n) ps
  end.

Lemma total_app ps1 ps2 : total (ps1 ++ ps2) = total ps1 + total ps2.
Proof. unfold total. induction ps1; cbn in *; lia. Qed.

Lemma place_app ps1 : forall p ps2,
  place p (ps1 ++ ps2) = place p ps1 ++ place (p + total ps1) ps2.
Proof.
  induction ps1 as [|[[s|] n] ps1 IH]; intros p ps2; cbn [app place].
  - f_equal. unfold total. cbn. lia.
  - rewrite IH. cbn [app]. do 2 f_equal. f_equal. unfold total. cbn. lia.
  - rewrite IH. f_equal. f_equal. unfold total. cbn. lia.
Qed.

Lemma place_seq (g : nat -> slot) q n : forall s p,
  place (p + s * q) ((fun i => (Some (g i), q)) <$> seq s n) =
  (fun i => (g i, p + i * q, q)) <$> seq s n.
Proof.
  induction n as [|n IH]; intros s p; [done|]. cbn [seq fmap list_fmap place]. f_equal.
  replace (p + s * q + q) with (p + S s * q) by lia. apply IH.
Qed.

Lemma place_seq0 (g : nat -> slot) q n p :
  place p ((fun i => (Some (g i), q)) <$> seq 0 n) = (fun i => (g i, p + i * q, q)) <$> seq 0 n.
Proof. pose proof (place_seq g q n 0 p) as H. cbn [Nat.mul] in H. by rewrite Nat.add_0_r in H. Qed.

Lemma total_seq (g : nat -> slot) q n : forall s,
  total ((fun i => (Some (g i), q)) <$> seq s n) = n * q.
Proof. induction n as [|n IH]; intros s; [done|]. cbn in *. rewrite IH. lia. Qed.

Lemma place_norms d n : forall s p,
  place (p + s * 2 * d)
    (seq s n ≫= fun i => [(Some (Val (Gamma i)), d); (Some (Val (Beta i)), d)]) =
  seq s n ≫= fun i => [(Val (Gamma i), p + i * 2 * d, d); (Val (Beta i), p + i * 2 * d + d, d)].
Proof.
  induction n as [|n IH]; intros s p; [done|].
  cbn [seq mbind list_bind app place]. do 2 f_equal.
  replace (p + s * 2 * d + d + d) with (p + S s * 2 * d) by lia. apply IH.
Qed.

Lemma place_norms0 d n p :
  place p (seq 0 n ≫= fun i => [(Some (Val (Gamma i)), d); (Some (Val (Beta i)), d)]) =
  seq 0 n ≫= fun i => [(Val (Gamma i), p + i * 2 * d, d); (Val (Beta i), p + i * 2 * d + d, d)].
Proof. pose proof (place_norms d n 0 p) as H. cbn [Nat.mul] in H. by rewrite Nat.add_0_r in H. Qed.

Lemma total_norms d n : forall s,
  total (seq s n ≫= fun i => [(Some (Val (Gamma i)), d); (Some (Val (Beta i)), d)]) = n * (d * 2).
Proof. induction n as [|n IH]; intros s; [done|]. cbn in *. rewrite IH. lia. Qed.

Ltac segs := repeat (f_equal; try lia); try done.

Lemma dense_place V f : place 0 (dense_params V f) = fcl_params_out V f.
Proof.
  unfold dense_params, fcl_params_out. destruct (f_noisy f), (f_ln f); cbn [app place]; segs.
Qed.
Lemma dense_place_in V f : place 0 (dense_params V f) = fcl_params_in V f.
Proof.
  unfold dense_params, fcl_params_in. destruct (f_noisy f), (f_ln f); cbn [app place]; segs.
Qed.

Lemma conv_place V c : place 0 (conv_params V c) = cl_params_out V c.
Proof.
  unfold conv_params, cl_params_out. rewrite place_app, place_seq0, total_seq.
  f_equal. cbn [app place]. f_equal.
  destruct (c_gn c); [|done]. unfold groups, ksize.
  rewrite place_app, !place_seq0, total_seq. f_equal.
  apply list_fmap_ext. intros i x _. segs.
Qed.
Lemma conv_place_in V c : place 0 (conv_params V c) = cl_params_in V c.
Proof. rewrite conv_place. reflexivity. Qed.

Lemma conv_weights_place c :
  place 0 (((fun i => (Some (Val (Kernel i)), c_ch c * c_kr c * c_kc c)) <$> seq 0 (c_n c)) ++
        (if c_gn c then
           ((fun i => (Some (Val (Gamma i)), c_dim c)) <$> seq 0 (c_n c / c_gch c)) ++
           ((fun i => (Some (Val (Beta i)), c_dim c)) <$> seq 0 (c_n c / c_gch c))
         else [])) = cl_weights_out c.
Proof.
  unfold cl_weights_out. rewrite place_app, place_seq0, total_seq.
  f_equal. destruct (c_gn c); [|done]. unfold groups, ksize.
  rewrite place_app, !place_seq0, total_seq. f_equal.
  apply list_fmap_ext. intros i x _. segs.
Qed.

Lemma fcl_exists f : exists_params_fcl f = negb (bool_decide (f_ff f = OnlyDropout)).
Proof. unfold exists_params_fcl. by destruct (f_ff f). Qed.

Lemma fcl_scored f : f_ff f <> OnlyDropout ->
  exists_edge_popup_stuff_fcl f = bool_decide (scored (f_ff f) (f_tr f)).
Proof. unfold exists_edge_popup_stuff_fcl. by destruct (f_ff f), (f_tr f). Qed.

Lemma fcl_derived f : f_ff f <> OnlyDropout ->
  exists_d_params_fcl f = bool_decide (derived (f_tr f)).
Proof. unfold exists_d_params_fcl. by destruct (f_ff f), (f_tr f). Qed.

Lemma fcl_out_place k f : place 0 (layout k (Dense f)) = fcl_out k f.
Proof.
  unfold layout, fcl_out. rewrite fcl_exists.
  destruct (decide (f_ff f = OnlyDropout)) as [E|N].
  - unfold exists_edge_popup_stuff_fcl, exists_d_params_fcl. rewrite E. by destruct k.
  - rewrite (bool_decide_eq_false_2 (f_ff f = OnlyDropout)) by done. cbn [negb].
    rewrite fcl_scored, fcl_derived by done. unfold bool_decide, decide.
    destruct k.
    + apply dense_place.
    + unfold fcl_weights_out. destruct (f_noisy f), (f_ln f); cbn [app place]; segs.
    + by destruct (scored_dec _ _).
    + by destruct (scored_dec _ _).
    + destruct (derived_dec _); [apply dense_place|done].
Qed.

Lemma fcl_in_out k f : fcl_in k f = fcl_out k f.
Proof. destruct k; try reflexivity. Qed.

Lemma cl_out_place k c g :
  (k = Derivs -> g = c_conv c && bool_decide (derived (c_tr c))) ->
  place 0 (layout k (Conv c)) = cl_out k g c.
Proof.
  intros G. unfold layout, cl_out, exists_kernels_cl, exists_edge_popup_stuff_cl.
  destruct (c_conv c); cbn [andb] in *.
  - assert (S : bool_decide (c_ff c = EdgeFF) || bool_decide (c_tr c = EdgePopup) =
                bool_decide (scored (c_ff c) (c_tr c))) by (by destruct (c_ff c), (c_tr c)).
    rewrite S. unfold bool_decide, decide in *. destruct k.
    + apply conv_place.
    + apply conv_weights_place.
    + by destruct (scored_dec _ _).
    + by destruct (scored_dec _ _).
    + rewrite G by done. destruct (derived_dec _); [apply conv_place|done].
  - destruct k; try done. by rewrite G.
Qed.

Lemma cl_in_out k g c : cl_in k g c = cl_out k g c.
Proof. destruct k; reflexivity. Qed.

Lemma lstm_out_place k l : place 0 (layout k (Lstmc l)) = lstm_out k l.
Proof.
  assert (NP : forall p, place p (lstm_norms l) =
    if l_gn l then
      seq 0 (bns l) ≫= fun i =>
        [(Val (Gamma i), p + i * 2 * l_dim l, l_dim l);
         (Val (Beta i), p + i * 2 * l_dim l + l_dim l, l_dim l)]
    else []).
  { intros p. unfold lstm_norms, bns. destruct (l_gn l); [apply place_norms0|done]. }
  unfold layout, lstm_out. destruct k; try done.
  - unfold lstm_gates. rewrite <- !app_assoc, !place_app.
    apply (f_equal2 app); [cbn [fmap list_fmap place seq]; segs|].
    apply (f_equal2 app); [cbn [fmap list_fmap place seq total foldr snd]; segs|].
    apply (f_equal2 app); [cbn [fmap list_fmap place seq total foldr snd]; segs|].
    rewrite NP. destruct (l_gn l); [|done]. apply list_bind_ext; [|done]. intros i.
    cbn [fmap list_fmap place seq total foldr snd]. segs.
  - unfold lstm_gates. rewrite <- !app_assoc, !place_app.
    apply (f_equal2 app); [cbn [fmap list_fmap place seq]; segs|].
    apply (f_equal2 app); [cbn [fmap list_fmap place seq total foldr snd]; segs|].
    rewrite NP. destruct (l_gn l); [|done]. apply list_bind_ext; [|done]. intros i.
    cbn [fmap list_fmap place seq total foldr snd]. segs.
  - rewrite !place_app. cbn [fmap list_fmap place app seq total foldr snd]. segs.
Qed.

Lemma lstm_in_out k l : lstm_in k l = lstm_out k l.
Proof. destruct k; reflexivity. Qed.

(** ** Sizes *)

Lemma dense_total V f : total (dense_params V f) =
  f_in f * f_out f + f_out f + ((if f_ln f then f_dim f * 2 else 0) +
      (if f_noisy f then f_in f * f_out f + f_out f else 0)).
Proof. unfold dense_params, total. destruct (f_noisy f), (f_ln f); cbn; lia. Qed.

Lemma conv_total V c : total (conv_params V c) =
  (if c_gn c then groups c * (c_dim c * 2) else 0) + c_n c * ksize c + c_n c.
Proof.
  unfold conv_params. rewrite !total_app, total_seq. unfold groups, ksize.
  destruct (c_gn c); rewrite ?total_app, ?total_seq; unfold total; cbn; lia.
Qed.

Lemma fcl_total k f : total (layout k (Dense f)) = size_fcl k f.
Proof.
  unfold layout, size_fcl. rewrite fcl_exists.
  destruct (decide (f_ff f = OnlyDropout)) as [E|N].
  - unfold exists_edge_popup_stuff_fcl. rewrite E. by destruct k.
  - rewrite (bool_decide_eq_false_2 (f_ff f = OnlyDropout)) by done. cbn [negb].
    rewrite fcl_scored by done. unfold bool_decide, decide. destruct k.
    + apply dense_total.
    + destruct (f_noisy f), (f_ln f); unfold total; cbn; lia.
    + destruct (scored_dec _ _); unfold total; cbn; lia.
    + destruct (scored_dec _ _); unfold total; cbn; lia.
    + destruct (derived_dec _); [apply dense_total|]. rewrite <- (dense_total Grad).
      unfold total at 1. cbn [foldr snd]. lia.
Qed.

Lemma cl_total k c : total (layout k (Conv c)) = size_cl k c.
Proof.
  unfold layout, size_cl, exists_kernels_cl, exists_edge_popup_stuff_cl.
  destruct (c_conv c); cbn [andb]; [|by destruct k].
  assert (S : bool_decide (c_ff c = EdgeFF) || bool_decide (c_tr c = EdgePopup) =
                bool_decide (scored (c_ff c) (c_tr c))) by (by destruct (c_ff c), (c_tr c)).
  rewrite S. unfold bool_decide, decide. destruct k.
  - apply conv_total.
  - rewrite total_app, total_seq. unfold groups, ksize.
    destruct (c_gn c); rewrite ?total_app, ?total_seq; unfold total; cbn; lia.
  - unfold ksize. destruct (scored_dec _ _); unfold total; cbn; lia.
  - unfold ksize. destruct (scored_dec _ _); unfold total; cbn; lia.
  - destruct (derived_dec _); [apply conv_total|]. rewrite <- (conv_total Grad).
    unfold total at 1. cbn [foldr snd]. lia.
Qed.

Lemma lstm_total k l : total (layout k (Lstmc l)) = size_lstm k l.
Proof.
  assert (N : total (lstm_norms l) = if l_gn l then bns l * (l_dim l * 2) else 0).
  { unfold lstm_norms, bns. destruct (l_gn l); [apply total_norms|done]. }
  unfold layout, size_lstm, lstm_gates. destruct k; try done;
    rewrite ?total_app, ?N; unfold total; cbn [fmap list_fmap foldr snd]; lia.
Qed.

(** ** Entries *)

Definition tag (a : nat) (ps : parts) : list entry := (fun p => (a, p)) <$> ps.

Lemma extent_app es1 es2 : extent (es1 ++ es2) = extent es1 + extent es2.
Proof. unfold extent. by rewrite fmap_app, total_app. Qed.

Lemma extent_tag a ps : extent (tag a ps) = total ps.
Proof.
  unfold extent, tag. f_equal. rewrite <- list_fmap_compose.
  rewrite <- (list_fmap_id ps) at 2. apply list_fmap_ext. by intros.
Qed.

Lemma entries_app k ls1 ls2 : entries k (ls1 ++ ls2) = entries k ls1 ++ entries k ls2.
Proof. unfold entries. apply bind_app. Qed.

Lemma entries_one k l : entries k [l] = tag (addr l) (layout k l).
Proof. unfold entries. cbn. by rewrite app_nil_r. Qed.

Definition key (e : entry) : option (nat * slot) :=
  match e with (a, (Some s, _)) => Some (a, s) | _ => None end.
Definition keys (es : list entry) : list (nat * slot) := omap key es.

Lemma keys_app es1 es2 : keys (es1 ++ es2) = keys es1 ++ keys es2.
Proof. unfold keys. apply omap_app. Qed.

Lemma elem_keys es a s : (a, s) ∈ keys es <-> exists n, (a, (Some s, n)) ∈ es.
Proof.
  unfold keys. rewrite elem_of_list_omap. split.
  - intros ([a' [[s'|] n]] & I & E); [|done]. cbn in E. injection E as -> ->. by exists n.
  - intros (n & I). by exists (a, (Some s, n)).
Qed.

Section walking.
  Context {S : Type}.
  (** a property of copies that composes *)
  Variable P : (nat -> S -> option S) -> list entry -> Prop.
  Hypothesis P_nil : P (fun _ s => Some s) [].
  Hypothesis P_app : forall c1 c2 es1 es2, P c1 es1 -> P c2 es2 ->
    P (fun o s => s' ← c1 o s; c2 (o + extent es1) s') (es1 ++ es2).
  Hypothesis P_ext : forall c1 c2 es, (forall o s, c1 o s = c2 o s) -> P c1 es -> P c2 es.

  Lemma walk_fst {L} (size : L -> nat) (copy : L -> nat -> S -> option S) ls : forall sum s,
    walk size copy ls sum s =
    (fun s' => (sum + sum_sizes size ls, s')) <$> (snd <$> walk size copy ls sum s).
  Proof using.
    assert (SS : forall ls n, foldl (fun s l => s + size l) n ls = n + sum_sizes size ls).
    { clear. induction ls as [|l ls IH]; intros n; cbn; [unfold sum_sizes; cbn; lia|].
      unfold sum_sizes. cbn. rewrite IH, (IH (size l)). lia. }
    induction ls as [|l ls IH]; intros sum s; cbn [walk].
    - cbn. unfold sum_sizes. cbn. by rewrite Nat.add_0_r.
    - destruct (copy l sum s) as [s'|]; [|done]. cbn [mbind option_bind]. rewrite IH.
      destruct (walk size copy ls (sum + size l) s') as [[x y]|]; [|done]. cbn. do 2 f_equal.
      unfold sum_sizes. cbn. rewrite !SS. lia.
  Qed.

  Lemma walk_shift {L} (size : L -> nat) (copy : L -> nat -> S -> option S) ls : forall sum s,
    snd <$> walk size copy ls sum s =
    snd <$> walk size (fun l o => copy l (sum + o)) ls 0 s.
  Proof using.
    assert (G : forall ls sum sum' (copy copy' : L -> nat -> S -> option S) s,
      (forall l o, copy l (sum + o) = copy' l (sum' + o)) ->
      snd <$> walk size copy ls sum s = snd <$> walk size copy' ls sum' s).
    { clear. induction ls as [|l ls IH]; intros sum sum' copy copy' s E; [done|]. cbn [walk].
      pose proof (E l 0) as E0. rewrite !Nat.add_0_r in E0. rewrite E0.
      destruct (copy' l sum' s) as [s'|]; [|done]. cbn [mbind option_bind].
      apply IH. intros l' o. rewrite <- !Nat.add_assoc. apply E. }
    intros sum s. apply G. intros l o. by rewrite Nat.add_0_l.
  Qed.

  Lemma walk_assoc {L} (size : L -> nat) (copy : L -> nat -> S -> option S) o d ls : forall sum s,
    walk size (fun l p => copy l (o + d + p)) ls sum s =
    walk size (fun l p => copy l (o + (d + p))) ls sum s.
  Proof using.
    induction ls as [|l ls IH]; intros sum s; [done|]. cbn [walk].
    rewrite (Nat.add_assoc o d sum). destruct (copy l _ s); [|done]. cbn. apply IH.
  Qed.

  Lemma walk_from {L} (size : L -> nat) (copy : L -> nat -> S -> option S) o d ls s :
    walk size (fun l p => copy l (o + p)) ls d s =
    (fun s' => (d + sum_sizes size ls, s')) <$>
      (snd <$> walk size (fun l p => copy l (o + d + p)) ls 0 s).
  Proof using. rewrite walk_fst, walk_shift. by rewrite walk_assoc. Qed.

  Lemma walk_P {L} (size : L -> nat) (copy : L -> nat -> S -> option S) (es : L -> list entry) ls :
    (forall l, l ∈ ls -> P (copy l) (es l) /\ extent (es l) = size l) ->
    P (fun o s => snd <$> walk size (fun l p => copy l (o + p)) ls 0 s) (ls ≫= es).
  Proof using All.
    induction ls as [|l ls IH]; intros H; cbn [mbind list_bind].
    - eapply P_ext; [|exact P_nil]. done.
    - destruct (H l) as [Pl El]; [left|].
      eapply P_ext; [|apply (P_app _ _ _ _ Pl (IH (fun l' I => H l' (elem_of_list_further _ _ _ I))))].
      intros o s. cbn [walk]. rewrite Nat.add_0_r.
      destruct (copy l o s) as [s'|]; [|done]. cbn [mbind option_bind].
      rewrite (walk_shift _ _ ls (0 + size l)). rewrite El.
      rewrite Nat.add_0_l. by rewrite walk_assoc.
  Qed.

  Lemma sum_sizes_extent {L} (size : L -> nat) (es : L -> list entry) ls :
    (forall l, l ∈ ls -> extent (es l) = size l) -> extent (ls ≫= es) = sum_sizes size ls.
  Proof using.
    assert (SS : forall ls n, foldl (fun s l => s + size l) n ls = n + sum_sizes size ls).
    { clear. induction ls as [|l ls IH]; intros n; cbn; [unfold sum_sizes; cbn; lia|].
      unfold sum_sizes. cbn. rewrite IH, (IH (size l)). lia. }
    induction ls as [|l ls IH]; intros H; [done|]. cbn [mbind list_bind].
    rewrite extent_app. rewrite (H l) by left. unfold sum_sizes. cbn. rewrite SS.
    rewrite <- IH; [done|]. intros l' I. apply H. by right.
  Qed.

  Variable k : kind.
  Variable cf : fcl -> nat -> S -> option S.
  Variable cc : cl -> nat -> S -> option S.
  Variable cr : lstm -> nat -> S -> option S.
  Hypothesis HF : forall f, P (cf f) (entries k [Dense f]).
  Hypothesis HC : forall c, P (cc c) (entries k [Conv c]).
  Hypothesis HL : forall l, P (cr l) (entries k [Lstmc l]).

  Lemma extent_fcl f : extent (entries k [Dense f]) = size_fcl k f.
  Proof using. rewrite entries_one, extent_tag. apply fcl_total. Qed.
  Lemma extent_cl c : extent (entries k [Conv c]) = size_cl k c.
  Proof using. rewrite entries_one, extent_tag. apply cl_total. Qed.
  Lemma extent_lstm l : extent (entries k [Lstmc l]) = size_lstm k l.
  Proof using. rewrite entries_one, extent_tag. apply lstm_total. Qed.

  Lemma entries_fmap {L} (g : L -> layer) (ls : list L) :
    entries k (g <$> ls) = ls ≫= fun l => entries k [g l].
  Proof using.
    induction ls as [|l ls IH]; [done|]. cbn [fmap list_fmap mbind list_bind].
    rewrite <- IH. change (g l :: (g <$> ls)) with ([g l] ++ (g <$> ls)). apply entries_app.
  Qed.
  Lemma entries_bind {L} (g : L -> list layer) (ls : list L) :
    entries k (ls ≫= g) = ls ≫= fun l => entries k (g l).
  Proof using.
    induction ls as [|l ls IH]; [done|]. cbn [mbind list_bind]. rewrite entries_app. by rewrite <- IH.
  Qed.

  Definition layers_rl (r : rl) : list layer := Conv <$> r_cls r.

  Lemma extent_rl r : extent (entries k (layers_rl r)) = size_rl k r.
  Proof using.
    unfold layers_rl. rewrite entries_fmap. apply sum_sizes_extent. intros. apply extent_cl.
  Qed.
  Lemma rl_P r : P (copy_rl k cc r) (entries k (layers_rl r)).
  Proof using P P_app P_ext P_nil HC.
    unfold layers_rl. rewrite entries_fmap. unfold copy_rl. apply walk_P.
    intros c _. split; [apply HC|apply extent_cl].
  Qed.

  Lemma extent_model m : extent (entries k (layers_model m)) = size_model k m.
  Proof using.
    unfold layers_model, size_model. rewrite !entries_app, !extent_app, !entries_fmap, entries_bind.
    rewrite Nat.add_assoc. f_equal; [f_equal|].
    - apply sum_sizes_extent. intros. apply extent_fcl.
    - apply sum_sizes_extent. intros. apply extent_cl.
    - apply sum_sizes_extent. intros. apply extent_rl.
  Qed.

  Lemma model_P m : P (copy_model k cf cc m) (entries k (layers_model m)).
  Proof using P P_app P_ext P_nil HC HF.
    unfold layers_model. rewrite !entries_app, !entries_fmap, entries_bind.
    pose proof (walk_P (size_fcl k) cf (fun f => entries k [Dense f]) (m_fcls m)) as H1.
    pose proof (walk_P (size_cl k) cc (fun c => entries k [Conv c]) (m_cls m)) as H2.
    pose proof (walk_P (size_rl k) (copy_rl k cc) (fun r => entries k (layers_rl r)) (m_rls m)) as H3.
    specialize (H1 (fun f _ => conj (HF f) (extent_fcl f))).
    specialize (H2 (fun c _ => conj (HC c) (extent_cl c))).
    specialize (H3 (fun r _ => conj (rl_P r) (extent_rl r))).
    eapply P_ext; [|exact (P_app _ _ _ _ H1 (P_app _ _ _ _ H2 H3))].
    intros o s. cbn beta.
    rewrite (sum_sizes_extent (size_fcl k)) by (intros; apply extent_fcl).
    rewrite (sum_sizes_extent (size_cl k)) by (intros; apply extent_cl).
    unfold copy_model. rewrite (walk_fst _ _ (m_fcls m)).
    destruct (walk (size_fcl k) _ (m_fcls m) 0 s) as [[x1 s1]|]; [|done].
    cbn [fmap option_fmap option_map snd mbind option_bind]. rewrite Nat.add_0_l.
    rewrite (walk_from (size_cl k) cc o (sum_sizes (size_fcl k) (m_fcls m)) (m_cls m)).
    destruct (walk (size_cl k) _ (m_cls m) 0 s1) as [[x2 s2]|]; [|done].
    cbn [fmap option_fmap option_map snd mbind option_bind].
    rewrite (walk_from (size_rl k) (copy_rl k cc) o _ (m_rls m)).
    rewrite <- Nat.add_assoc.
    by destruct (walk (size_rl k) _ (m_rls m) 0 s2) as [[x3 s3]|].
  Qed.

  Lemma extent_rmodel m : extent (entries k (layers_rmodel m)) = size_rmodel k m.
  Proof using.
    unfold layers_rmodel. rewrite entries_fmap. apply sum_sizes_extent. intros. apply extent_lstm.
  Qed.
  Lemma rmodel_P m : P (copy_rmodel k cr m) (entries k (layers_rmodel m)).
  Proof using P P_app P_ext P_nil HL.
    unfold layers_rmodel. rewrite entries_fmap. unfold copy_rmodel. apply walk_P.
    intros l _. split; [apply HL|apply extent_lstm].
  Qed.

  Lemma extent_dueling d : extent (entries k (layers_dueling d)) = size_dueling k d.
  Proof using.
    unfold layers_dueling, size_dueling. rewrite !entries_app, !extent_app, !extent_model. lia.
  Qed.
  Lemma dueling_P d : P (copy_dueling k cf cc d) (entries k (layers_dueling d)).
  Proof using P P_app P_ext P_nil HC HF.
    unfold layers_dueling, copy_dueling.
    pose proof (walk_P (size_model k) (copy_model k cf cc) (fun m => entries k (layers_model m))
      [d_shared d; d_vhid d; d_vlin d; d_ahid d; d_alin d]) as H.
    rewrite !entries_app. cbn [mbind list_bind] in H. rewrite app_nil_r in H. apply H.
    intros m _. split; [apply model_P|apply extent_model].
  Qed.

  Lemma extent_opt m : extent (entries k (layers_opt m)) = size_opt k m.
  Proof using. destruct m as [m|]; [apply extent_model|done]. Qed.
  Lemma opt_P m : P (copy_opt k cf cc m) (entries k (layers_opt m)).
  Proof using P P_app P_ext P_nil HC HF.
    destruct m as [m|]; [apply model_P|]. eapply P_ext; [|exact P_nil]. done.
  Qed.

  Lemma extent_zero z : extent (entries k (layers_zero z)) = size_zero k z.
  Proof using.
    unfold layers_zero, size_zero.
    rewrite !entries_app, !extent_app, !extent_model, !extent_opt, extent_rmodel. lia.
  Qed.
  Lemma zero_P z : P (copy_zero k cf cc cr z) (entries k (layers_zero z)).
  Proof using P P_app P_ext P_nil HC HF HL.
    pose proof (walk_P (size_opt k) (copy_opt k cf cc) (fun m => entries k (layers_opt m))
      [z_p1 z; z_p2 z]) as H1.
    pose proof (walk_P (size_model k) (copy_model k cf cc) (fun m => entries k (layers_model m))
      [z_h z; z_g z; z_f z; z_policy z; z_value z; z_reward z; z_temporal z]) as H2.
    specialize (H1 (fun m _ => conj (opt_P m) (extent_opt m))).
    specialize (H2 (fun m _ => conj (model_P m) (extent_model m))).
    pose proof (P_app _ _ _ _ H1 (P_app _ _ _ _ H2 (rmodel_P (z_rmodel z)))) as H.
    rewrite (sum_sizes_extent (size_opt k)) in H by (intros; apply extent_opt).
    rewrite (sum_sizes_extent (size_model k)) in H by (intros; apply extent_model).
    cbn [mbind list_bind] in H. rewrite !app_nil_r in H.
    unfold layers_zero. rewrite !entries_app.
    rewrite <- !app_assoc in H.
    eapply P_ext; [|exact H].
    intros o s. cbn beta. unfold copy_zero. rewrite (walk_fst _ _ [z_p1 z; z_p2 z]).
    destruct (walk (size_opt k) _ _ 0 s) as [[x1 s1]|]; [|done].
    cbn [fmap option_fmap option_map snd mbind option_bind]. rewrite Nat.add_0_l.
    rewrite (walk_from (size_model k) (copy_model k cf cc) o _ [z_h z; _; _; _; _; _; _]).
    destruct (walk (size_model k) _ _ 0 s1) as [[x2 s2]|]; [|done].
    cbn [fmap option_fmap option_map snd mbind option_bind]. by rewrite Nat.add_assoc.
  Qed.
End walking.
