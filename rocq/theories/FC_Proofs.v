From Verif Require Import NumLib NumLib2 Grad FC_Model FC_Spec.
Open Scope nat_scope.

Lemma el_dense isz osz W b x j : j < osz -> el (dense isz osz W b x) j = (el b j + sumn isz (fun i => el W (j * isz + i) * el x i))%R.
Proof. intros. unfold dense. by rewrite el_map_seq. Qed.
Lemma el_nil i : el [] i = 0%R.
Proof. by destruct i. Qed.

Section fc.
  Context (isz osz : nat) (input weight : list R).
  Hypothesis Hi : length input = isz.
  Hypothesis Hw : length weight = osz * isz.

  Lemma fc_row_adds n j : j < osz -> osz <= n -> Adds n (fc_row input weight isz j)
    (fun k => if decide (k = j) then sumn isz (fun i => el weight (j * isz + i) * el input i)%R else 0%R).
  Proof.
    intros Hj Hn. unfold fc_row. eapply Adds_ext.
    - apply (Adds_loop n isz _ (fun i k => if decide (k = j) then (el weight (j * isz + i) * el input i)%R else 0%R)).
      intros i Hlt. pose proof (flat_lt osz isz j i Hj Hlt). eapply Adds_body.
      + intros l Hl. rewrite !rd_el by lia. cbn [mbind option_bind]. reflexivity.
      + eapply Adds_ext; [apply Adds_at; lia|]. intros k Hk. cbn beta. destruct (decide (k = j)); [|done]. lra.
    - intros k Hk. cbn beta. destruct (decide (k = j)); [done|]. by apply sumn_0.
  Qed.

  Lemma fc_forward_adds n bias : osz <= n -> (forall b, bias = Some b -> length b = osz) ->
    Adds n (fun out => fc_feed_forward input out weight bias isz osz)
      (fun k => if decide (k < osz) then (el (default [] bias) k + sumn isz (fun i => el weight (k * isz + i) * el input i))%R else 0%R).
  Proof.
    intros Hn Hb. unfold fc_feed_forward.
    set (row := fun j => sumn isz (fun i => el weight (j * isz + i) * el input i)%R).
    assert (Hfin : forall (g : nat -> R) k, k < n -> sumn osz (fun j => if decide (k = j) then g j else 0%R) = if decide (k < osz) then g k else 0%R).
    { intros g k Hk. destruct (decide (k < osz)).
      - rewrite (sumn_single osz k); [by rewrite decide_True|done|]. intros j _ Hne. by rewrite decide_False by congruence.
      - apply sumn_0. intros j Hj. by rewrite decide_False by lia. }
    destruct bias as [b|]; cbn [default].
    - specialize (Hb b eq_refl). eapply Adds_ext.
      + apply (Adds_loop n osz _ (fun j k => if decide (k = j) then (el b j + row j)%R else 0%R)). intros j Hj.
        eapply Adds_ext.
        * eapply Adds_seq; [by apply fc_row_adds|]. eapply Adds_body; [intros l Hl; rewrite rd_el by lia; cbn [mbind option_bind]; reflexivity|apply Adds_at; lia].
        * intros k Hk. cbn beta. destruct (decide (k = j)); [|lra]. unfold row. lra.
      + intros k Hk. apply (Hfin (fun j => (el b j + row j)%R)); done.
    - eapply Adds_ext.
      + apply (Adds_loop n osz _ (fun j k => if decide (k = j) then row j else 0%R)). intros j Hj. by apply fc_row_adds.
      + intros k Hk. cbn beta. rewrite (Hfin row k Hk). destruct (decide (k < osz)); [|done]. unfold default, from_option. rewrite el_nil. unfold row. lra.
  Qed.
End fc.

(** Back propagation: the state splits into independent arrays. *)
Section bp.
  Context (isz osz : nat) (input weight oe : list R).
  Hypothesis Hi : length input = isz.
  Hypothesis Hw : length weight = osz * isz.
  Hypothesis Ho : length oe = osz.

  Definition we_row j : list R -> option (list R) := for_loop isz 0 (fun i we => addat we (j * isz + i) (el oe j * el input i)%R).
  Definition ie_row j : list R -> option (list R) := for_loop isz 0 (fun i ie => addat ie i (el oe j * el weight (j * isz + i))%R).

  Lemma bp_row_split j we ie : j < osz ->
    bp_row input oe weight isz j (we, ie) = (we' ← we_row j we; ie' ← ie_row j ie; Some (we', ie')).
  Proof.
    intros Hj. unfold bp_row, we_row, ie_row. apply for_loop_pair. intros i a b Hlt. pose proof (flat_lt osz isz j i Hj ltac:(lia)).
    rewrite !rd_el by lia. cbn [mbind option_bind fst snd]. by destruct (addat a _ _).
  Qed.
  Lemma bp_row_frozen_eq j ie : j < osz -> bp_row_frozen oe weight isz j ie = ie_row j ie.
  Proof.
    intros Hj. unfold bp_row_frozen, ie_row. apply for_loop_ext. intros i a Hlt. pose proof (flat_lt osz isz j i Hj ltac:(lia)). rewrite !rd_el by lia. done.
  Qed.

  Lemma we_adds : Adds (osz * isz) (for_loop osz 0 we_row) (fun k => (el oe (k / isz) * el input (k mod isz))%R).
  Proof.
    eapply Adds_ext.
    - apply (Adds_loop (osz * isz) osz _ (fun j k => sumn isz (fun i => if decide (k = j * isz + i) then (el oe j * el input i)%R else 0%R))).
      intros j Hj. unfold we_row. apply (Adds_loop (osz * isz) isz _ (fun i k => if decide (k = j * isz + i) then (el oe j * el input i)%R else 0%R)).
      intros i Hlt. apply Adds_at. by apply flat_lt.
    - intros k Hk. apply (sumn_hit osz isz k (fun j i => el oe j * el input i)%R Hk).
  Qed.
  Lemma ie_adds : Adds isz (for_loop osz 0 ie_row) (fun i => sumn osz (fun j => el oe j * el weight (j * isz + i))%R).
  Proof.
    eapply Adds_ext.
    - apply (Adds_loop isz osz _ (fun j k => sumn isz (fun i => if decide (k = i) then (el oe j * el weight (j * isz + i))%R else 0%R))).
      intros j Hj. unfold ie_row. apply (Adds_loop isz isz _ (fun i k => if decide (k = i) then (el oe j * el weight (j * isz + i))%R else 0%R)).
      intros i Hlt. by apply Adds_at.
    - intros k Hk. cbn beta. apply sumn_ext. intros j Hj. rewrite (sumn_single isz k); [by rewrite decide_True|done|].
      intros i _ Hne. by rewrite decide_False by congruence.
  Qed.
  Lemma be_adds : Adds osz (for_loop osz 0 (fun j be => addat be j (el oe j))) (fun j => el oe j).
  Proof.
    eapply Adds_ext.
    - apply (Adds_loop osz osz _ (fun j k => if decide (k = j) then el oe j else 0%R)). intros j Hj. by apply Adds_at.
    - intros k Hk. cbn beta. rewrite (sumn_single osz k); [by rewrite decide_True|done|]. intros j _ Hne. by rewrite decide_False by congruence.
  Qed.

  Lemma fc_bp_run we ie be frozen : length we = osz * isz -> length ie = isz -> (forall b, be = Some b -> length b = osz) ->
    fc_back_prop input oe weight (we, ie, be) isz osz frozen =
      Some (if frozen && negb (bool_decide (is_Some be)) then we else imap (fun k x => x + el oe (k / isz) * el input (k mod isz))%R we,
            imap (fun i x => x + sumn osz (fun j => el oe j * el weight (j * isz + i)))%R ie,
            imap (fun j x => x + el oe j)%R <$> be).
  Proof.
    intros Lw Li Lb. unfold fc_back_prop. cbn [fst snd]. destruct be as [be|].
    - specialize (Lb be eq_refl).
      rewrite (for_loop_pair (fun j p => bp_row input oe weight isz j p) (fun j be => addat be j (el oe j))).
      2:{ intros j p b Hj. cbn [fst snd]. rewrite (rd_el oe j) by lia. done. }
      rewrite (for_loop_pair we_row ie_row) by (intros j a b Hj; apply bp_row_split; lia).
      rewrite (we_adds we Lw), (ie_adds ie Li). cbn [mbind option_bind]. rewrite (be_adds be Lb). cbn. rewrite andb_false_r. done.
    - destruct frozen.
      + rewrite (for_loop_ext _ ie_row) by (intros j a Hj; apply bp_row_frozen_eq; lia). rewrite (ie_adds ie Li). done.
      + rewrite (for_loop_pair we_row ie_row) by (intros j a b Hj; apply bp_row_split; lia).
        rewrite (we_adds we Lw), (ie_adds ie Li). done.
  Qed.
End bp.

(** Partial derivatives of <oe, dense W b x>. *)
Lemma dense_partial_W isz osz W b x oe k : k < osz * isz -> length W = osz * isz ->
  has_partial (fun W => inner osz oe (dense isz osz W b x)) W k (el oe (k / isz) * el x (k mod isz)).
Proof.
  intros Hk HW. destruct (flat_split osz isz k Hk) as (H1 & H2 & H3). unfold has_partial, inner.
  eapply dlim_val; [|apply (dlim_sumn osz (fun j t => el oe j * el (dense isz osz (<[k := t]> W) b x) j)%R _ (fun j => if decide (j = k / isz)%nat then el oe j * el x (k mod isz) else 0)%R)].
  { by rewrite (sumn_delta osz (k / isz) (fun j => el oe j * el x (k mod isz))%R). }
  intros j Hj. eapply dlim_val; [|apply dlim_scal]; cycle 1.
  - eapply dlim_ext; [intros t; by apply el_dense|]. apply dlim_plus; [apply dlim_const|].
    apply (dlim_sumn isz (fun i t => el (<[k := t]> W) (j * isz + i) * el x i)%R _ (fun i => (if decide (j * isz + i = k)%nat then 1 else 0) * el x i)%R).
    intros i Hi. eapply dlim_val; [|apply dlim_mult; [apply dlim_el; lia|apply dlim_const]]. lra.
  - destruct (decide (j = k / isz)) as [->|Hne].
    + rewrite (sumn_single isz (k mod isz)); [rewrite decide_True by lia; lra|done|]. intros i Hi Hne. rewrite decide_False by lia. lra.
    + rewrite sumn_0; [lra|]. intros i Hi. rewrite decide_False; [lra|]. intros E. apply Hne. rewrite H3 in E. apply flat_inj in E; [|done..]. lia.
Qed.
Lemma dense_partial_b isz osz W b x oe k : k < osz -> length b = osz ->
  has_partial (fun b => inner osz oe (dense isz osz W b x)) b k (el oe k).
Proof.
  intros Hk Hb. unfold has_partial, inner.
  eapply dlim_val; [|apply (dlim_sumn osz (fun j t => el oe j * el (dense isz osz W (<[k := t]> b) x) j)%R _ (fun j => if decide (j = k) then el oe j else 0)%R)].
  { by rewrite (sumn_delta osz k). }
  intros j Hj. eapply dlim_val; [|apply dlim_scal]; cycle 1.
  - eapply dlim_ext; [intros t; by apply el_dense|]. apply dlim_plus; [apply dlim_el; lia|apply dlim_const].
  - destruct (decide (j = k)); lra.
Qed.
Lemma dense_partial_x isz osz W b x oe k : k < isz -> length x = isz ->
  has_partial (fun x => inner osz oe (dense isz osz W b x)) x k (sumn osz (fun j => el oe j * el W (j * isz + k)%nat)%R).
Proof.
  intros Hk Hx. unfold has_partial, inner.
  apply (dlim_sumn osz (fun j t => el oe j * el (dense isz osz W b (<[k := t]> x)) j)%R _ (fun j => el oe j * el W (j * isz + k))%R).
  intros j Hj. apply dlim_scal. eapply dlim_ext; [intros t; by apply el_dense|].
  eapply dlim_val; [|apply dlim_plus; [apply dlim_const|
    apply (dlim_sumn isz (fun i t => el W (j * isz + i) * el (<[k := t]> x) i)%R _ (fun i => if decide (i = k) then el W (j * isz + i) else 0)%R)]].
  - rewrite (sumn_delta isz k (fun i => el W (j * isz + i))) by done. lra.
  - intros i Hi. eapply dlim_val; [|apply dlim_scal, dlim_el; lia]. destruct (decide (i = k)); lra.
Qed.

(** Edge-popup loops *)
Section ep.
  Context (isz osz : nat) (input weight oe : list R) (indices : list nat) (last_n : nat).
  Hypothesis Hi : length input = isz.
  Hypothesis Hw : length weight = osz * isz.
  Hypothesis Ho : length oe = osz.
  Hypothesis Hidx : length indices = osz * isz.
  Hypothesis Hnd : NoDup indices.
  Hypothesis Hrange : forall k, k ∈ indices -> k < osz * isz.
  Hypothesis Hn : last_n <= osz * isz.
  Let sel := drop (osz * isz - last_n) indices.

  Lemma sel_nodup : NoDup sel.
  Proof. pose proof Hnd as H. rewrite <- (take_drop (osz * isz - last_n) indices) in H. apply NoDup_app in H. apply H. Qed.
  Lemma sel_range k : k ∈ sel -> k < osz * isz.
  Proof. intros H. apply Hrange. rewrite <- (take_drop (osz * isz - last_n) indices). apply elem_of_app. by right. Qed.
  Lemma idx_nth j : j < osz * isz -> rd indices j = Some (nth j indices 0) /\ nth j indices 0 < osz * isz.
  Proof.
    intros Hj. destruct (lookup_lt_is_Some_2 indices j ltac:(lia)) as [k E]. unfold rd. rewrite E. erewrite nth_lookup_Some by done. split; [done|].
    apply Hrange. by eapply elem_of_list_lookup_2.
  Qed.
  Lemma sel_sum (g : nat -> R) : sumn last_n (fun t => g (nth (osz * isz - last_n + t) indices 0)) = sumn (osz * isz) (fun k => if decide (k ∈ sel) then g k else 0%R).
  Proof.
    rewrite (sumn_drop g indices 0 (osz * isz - last_n) last_n) by lia. apply suml_nodup; [apply sel_nodup|apply sel_range].
  Qed.

  (** a loop over the selected indices that adds [v k] at position [p k] *)
  Lemma ep_loop_adds n (p : nat -> nat) (v : nat -> R) body :
    (forall k, k < osz * isz -> p k < n) ->
    (forall j l, osz * isz - last_n <= j < osz * isz -> length l = n -> body j l = addat l (p (nth j indices 0)) (v (nth j indices 0))) ->
    Adds n (for_loop last_n (osz * isz - last_n) body) (fun q => sumn (osz * isz) (fun k => if decide (k ∈ sel) then if decide (q = p k) then v k else 0 else 0)%R).
  Proof.
    intros Hp Hb. eapply Adds_ext.
    - apply (Adds_loop_from n last_n (osz * isz - last_n) body (fun j q => if decide (q = p (nth j indices 0)) then v (nth j indices 0) else 0%R)).
      intros j Hj. eapply Adds_body; [intros l Hl; apply Hb; [lia|done]|]. apply Adds_at. apply Hp. apply idx_nth. lia.
    - intros q Hq. exact (sel_sum (fun k => if decide (q = p k) then v k else 0%R)).
  Qed.

  Lemma edge_popup_adds n : osz <= n -> Adds n (fun out => fc_edge_popup input out weight isz osz indices last_n)
    (fun q => if decide (q < osz) then sumn isz (fun i => el (keep_only sel weight) (q * isz + i) * el input i)%R else 0%R).
  Proof.
    intros Hle. unfold fc_edge_popup. eapply Adds_body; [intros l Hl; rewrite decide_False by lia; reflexivity|]. eapply Adds_ext.
    - apply (ep_loop_adds n (fun k => k / isz) (fun k => el input (k mod isz) * el weight k)%R).
      + intros k Hk. destruct (flat_split osz isz k Hk) as (? & ? & ?). lia.
      + intros j l Hj Hl. destruct (idx_nth j ltac:(lia)) as [E Hlt]. rewrite E. cbn [mbind option_bind].
        destruct (flat_split osz isz _ Hlt) as (? & ? & ?). rewrite !rd_el by lia. done.
    - intros q Hq. cbn beta. rewrite sumn_mul. destruct (decide (q < osz)) as [Hlt|Hge].
      + rewrite (sumn_single osz q); [|done|].
        * apply sumn_ext. intros i Hii. rewrite flat_div, flat_mod by done. rewrite (decide_True (P := q = q)) by done.
          pose proof (flat_lt osz isz q i Hlt Hii). unfold keep_only. rewrite el_imap by lia. destruct (decide (q * isz + i ∈ sel)); lra.
        * intros j Hj Hne. apply sumn_0. intros i Hii. rewrite flat_div by done. rewrite (decide_False (P := q = j)) by congruence. by destruct (decide _).
      + apply sumn_0. intros j Hj. apply sumn_0. intros i Hii. rewrite flat_div by done. rewrite (decide_False (P := q = j)) by lia. by destruct (decide _).
  Qed.

  Lemma ep_input_adds : Adds isz (fun ie => ep_input_error oe weight ie isz osz indices last_n)
    (fun i => sumn osz (fun j => el oe j * el (keep_only sel weight) (j * isz + i))%R).
  Proof.
    unfold ep_input_error. eapply Adds_body; [intros l Hl; rewrite decide_False by lia; reflexivity|]. eapply Adds_ext.
    - apply (ep_loop_adds isz (fun k => k mod isz) (fun k => el oe (k / isz) * el weight k)%R).
      + intros k Hk. destruct (flat_split osz isz k Hk) as (? & ? & ?). lia.
      + intros j l Hj Hl. destruct (idx_nth j ltac:(lia)) as [E Hlt]. rewrite E. cbn [mbind option_bind].
        destruct (flat_split osz isz _ Hlt) as (? & ? & ?). rewrite !rd_el by lia. done.
    - intros q Hq. cbn beta. rewrite sumn_mul. apply sumn_ext. intros j Hj.
      pose proof (flat_lt osz isz j q Hj Hq). unfold keep_only. rewrite el_imap by lia.
      rewrite (sumn_single isz q); [|done|].
      + rewrite flat_div, flat_mod by done. rewrite (decide_True (P := q = q)) by done. destruct (decide (j * isz + q ∈ sel)); lra.
      + intros i Hii Hne. rewrite flat_mod by done. rewrite (decide_False (P := q = i)) by congruence. by destruct (decide _).
  Qed.

  Lemma ep_weight_adds : Adds (osz * isz) (for_loop last_n (osz * isz - last_n) (fun j we =>
      k ← rd indices j; e ← rd oe (k / isz); x ← rd input (k mod isz); addat we k (e * x)%R))
    (fun k => if decide (k ∈ sel) then (el oe (k / isz) * el input (k mod isz))%R else 0%R).
  Proof.
    eapply Adds_ext.
    - apply (ep_loop_adds (osz * isz) (fun k => k) (fun k => el oe (k / isz) * el input (k mod isz))%R); [done|].
      intros j l Hj Hl. destruct (idx_nth j ltac:(lia)) as [E Hlt]. rewrite E. cbn [mbind option_bind].
      destruct (flat_split osz isz _ Hlt) as (? & ? & ?). rewrite !rd_el by lia. done.
    - intros q Hq. cbn beta. rewrite (sumn_single (osz * isz) q); [by rewrite (decide_True (P := q = q))|done|].
      intros k _ Hne. rewrite (decide_False (P := q = k)) by congruence. by destruct (decide _).
  Qed.

  Lemma score_adds : Adds (osz * isz) (for_loop osz 0 (fun j s => for_loop isz 0 (fun i s =>
    e ← rd oe j; x ← rd input i; w ← rd weight (j * isz + i); addat s (j * isz + i) (e * x * w)%R) s))
    (fun k => el oe (k / isz) * el input (k mod isz) * el weight k)%R.
  Proof.
    eapply Adds_ext.
    - apply (Adds_loop (osz * isz) osz _ (fun j k => sumn isz (fun i => if decide (k = j * isz + i) then (el oe j * el input i * el weight (j * isz + i))%R else 0%R))).
      intros j Hj. apply (Adds_loop (osz * isz) isz _ (fun i k => if decide (k = j * isz + i) then (el oe j * el input i * el weight (j * isz + i))%R else 0%R)).
      intros i Hlt. pose proof (flat_lt osz isz j i Hj Hlt). eapply Adds_body; [intros l Hl; rewrite !rd_el by lia; cbn [mbind option_bind]; reflexivity|]. by apply Adds_at.
    - intros k Hk. cbn beta. rewrite (sumn_hit osz isz k (fun j i => el oe j * el input i * el weight (j * isz + i))%R Hk).
      destruct (flat_split osz isz k Hk) as (? & ? & E). by rewrite <- E.
  Qed.
End ep.

Lemma keep_only_insert sel W k t : k < length W -> keep_only sel (<[k := t]> W) = if decide (k ∈ sel) then <[k := t]> (keep_only sel W) else keep_only sel W.
Proof.
  intros Hk. apply list_eq. intros i. unfold keep_only. rewrite list_lookup_imap.
  destruct (decide (i = k)) as [->|Hne].
  - rewrite list_lookup_insert by done. cbn. destruct (decide (k ∈ sel)).
    + by rewrite list_lookup_insert by by rewrite imap_length.
    + rewrite list_lookup_imap, lookup_el by done. cbn. by rewrite decide_False.
  - rewrite list_lookup_insert_ne by done. destruct (decide (k ∈ sel)); [rewrite list_lookup_insert_ne by done|]; by rewrite list_lookup_imap.
Qed.
Lemma dense_partial_keep isz osz W x oe sel k : k < osz * isz -> length W = osz * isz ->
  has_partial (fun W => inner osz oe (dense isz osz (keep_only sel W) no_bias x)) W k
    (if decide (k ∈ sel) then el oe (k / isz) * el x (k mod isz) else 0).
Proof.
  intros Hk HW. unfold has_partial. destruct (decide (k ∈ sel)) as [Hin|Hout].
  - eapply dlim_ext; [intros t; rewrite keep_only_insert by lia; rewrite decide_True by done; reflexivity|].
    pose proof (dense_partial_W isz osz (keep_only sel W) no_bias x oe k Hk) as H. unfold has_partial in H.
    assert (el (keep_only sel W) k = el W k) as E by (unfold keep_only; rewrite el_imap by lia; by rewrite decide_True).
    rewrite E in H. apply H. unfold keep_only. by rewrite imap_length.
  - eapply dlim_ext; [intros t; rewrite keep_only_insert by lia; rewrite decide_False by done; reflexivity|]. apply dlim_const.
Qed.
(** derivative with respect to the gate of edge k *)
Lemma dense_partial_gate isz osz W m x oe k : k < osz * isz -> length W = osz * isz -> length m = osz * isz ->
  has_partial (fun m => inner osz oe (dense isz osz (gate m W) no_bias x)) m k (el oe (k / isz) * el x (k mod isz) * el W k).
Proof.
  intros Hk HW Hm. unfold has_partial.
  assert (E : forall t, gate (<[k := t]> m) W = <[k := (t * el W k)%R]> (gate m W)).
  { intros t. apply list_eq. intros i. unfold gate. rewrite list_lookup_imap. destruct (decide (i = k)) as [->|Hne].
    - rewrite lookup_el by lia. cbn. rewrite el_upd_eq by lia. by rewrite list_lookup_insert by (rewrite imap_length; lia).
    - rewrite list_lookup_insert_ne by done. rewrite list_lookup_imap. destruct (W !! i); [|done]. cbn. by rewrite el_upd_ne. }
  eapply dlim_ext; [intros t; rewrite E; reflexivity|].
  pose proof (dense_partial_W isz osz (gate m W) no_bias x oe k Hk) as H. unfold has_partial in H.
  assert (el (gate m W) k = (el m k * el W k)%R) as E2 by (unfold gate; rewrite el_imap by lia; done). rewrite E2 in H.
  specialize (H ltac:(unfold gate; by rewrite imap_length)).
  eapply dlim_val; [|apply (dlim_comp (fun t => t * el W k)%R (fun u => inner osz oe (dense isz osz (<[k := u]> (gate m W)) no_bias x)) (el m k) (el W k)); [by apply (dlim_affine _ _ _ 0%R); intros; lra|exact H]]. lra.
Qed.
