(** C24 dense layer forward/backward, C25 edge popup, C45 matrix product and elementwise vector functions. *)
From Verif Require Import NumLib NumLib2 Grad Act_Model Act_Props Loss_Model Loss_Props FC_Model FC_Spec FC_Proofs.
Open Scope nat_scope.

(** Sizes of a layer with [isz] inputs and [osz] outputs. *)
Definition layer_shape (isz osz : nat) (W b x : list R) : Prop := length W = osz * isz /\ length b = osz /\ length x = isz.

Lemma dense_zero_acc isz osz W b x bias out : length W = osz * isz -> length x = isz -> default [] bias = b -> (forall b, bias = Some b -> length b = osz) ->
  length out = osz ->
  fc_feed_forward x out W bias isz osz = Some (imap (fun j o => o + el (dense isz osz W b x) j)%R out).
Proof.
  intros HW Hx Hb Hl Ho. pose proof (fc_forward_adds isz osz x W Hx HW osz bias (le_n _) Hl out Ho) as E. cbn beta in E. rewrite E. f_equal.
  apply imap_ext_lt. intros j o Hj _. rewrite decide_True by lia. rewrite el_dense by lia. by rewrite Hb.
Qed.

(** forward: W.x + b is added to the output array (the callers clear it first) *)
Theorem C24_forward : forall isz osz W b x out, layer_shape isz osz W b x -> length out = osz ->
  exists out', fc_feed_forward x out W (Some b) isz osz = Some out' /\ length out' = osz /\
    forall j, j < osz -> el out' j = (el out j + el (dense isz osz W b x) j)%R.
Proof.
  intros isz osz W b x out (HW & Hb & Hx) Ho. rewrite (dense_zero_acc isz osz W b) by (done || naive_solver). eexists. split; [done|].
  rewrite imap_length. split; [done|]. intros j Hj. by rewrite el_imap by lia.
Qed.
Theorem C24_forward_without_bias : forall isz osz W x out, length W = osz * isz -> length x = isz -> length out = osz ->
  exists out', fc_feed_forward x out W None isz osz = Some out' /\ length out' = osz /\
    forall j, j < osz -> el out' j = (el out j + el (dense isz osz W no_bias x) j)%R.
Proof.
  intros isz osz W x out HW Hx Ho. rewrite (dense_zero_acc isz osz W no_bias) by (done || naive_solver). eexists. split; [done|].
  rewrite imap_length. split; [done|]. intros j Hj. by rewrite el_imap by lia.
Qed.
Theorem C24_forward_cleared : forall isz osz W b x, layer_shape isz osz W b x ->
  fc_feed_forward x (replicate osz 0%R) W (Some b) isz osz = Some (dense isz osz W b x).
Proof.
  intros isz osz W b x (HW & Hb & Hx). rewrite (dense_zero_acc isz osz W b) by (done || apply replicate_length || naive_solver). f_equal.
  apply list_eq. intros j. rewrite list_lookup_imap. destruct (decide (j < osz)) as [Hj|Hj].
  - rewrite lookup_replicate_2 by done. cbn. rewrite lookup_el by (unfold dense; by rewrite map_length, seq_length). f_equal. lra.
  - rewrite (lookup_ge_None_2 (replicate _ _)) by (rewrite replicate_length; lia). cbn. symmetry. apply lookup_ge_None_2. unfold dense. rewrite map_length, seq_length. lia.
Qed.


(** backward: weight, bias and input errors grow by the partial derivatives of <output error, W.x+b> *)
Theorem C24_backward : forall isz osz W b x oe we ie be frozen,
  layer_shape isz osz W b x -> length oe = osz -> length we = osz * isz -> length ie = isz -> length be = osz ->
  exists we' ie' be', fc_back_prop x oe W (we, ie, Some be) isz osz frozen = Some (we', ie', Some be') /\
    grad_added (fun W => inner osz oe (dense isz osz W b x)) W we we' /\
    grad_added (fun x => inner osz oe (dense isz osz W b x)) x ie ie' /\
    grad_added (fun b => inner osz oe (dense isz osz W b x)) b be be'.
Proof.
  intros isz osz W b x oe we ie be frozen (HW & Hb & Hx) Ho Lw Li Lb.
  rewrite fc_bp_run by (done || naive_solver). rewrite (bool_decide_true (is_Some (Some be))) by eauto. rewrite andb_false_r.
  cbn [fmap option_fmap option_map].
  eexists _, _, _. split; [done|]. unfold grad_added. rewrite !imap_length. split; [|split]; (split; [done|]).
  - intros k Hk. eexists. split; [by rewrite el_imap|]. apply dense_partial_W; lia.
  - intros k Hk. eexists. split; [by rewrite el_imap|]. apply dense_partial_x; lia.
  - intros k Hk. eexists. split; [by rewrite el_imap|]. apply dense_partial_b; lia.
Qed.
(** without bias errors: frozen layers leave the weight errors unchanged, the others add the gradient *)
Theorem C24_backward_without_bias : forall isz osz W x oe we ie frozen,
  length W = osz * isz -> length x = isz -> length oe = osz -> length we = osz * isz -> length ie = isz ->
  exists we' ie', fc_back_prop x oe W (we, ie, None) isz osz frozen = Some (we', ie', None) /\
    (if frozen then we' = we else grad_added (fun W => inner osz oe (dense isz osz W no_bias x)) W we we') /\
    grad_added (fun x => inner osz oe (dense isz osz W no_bias x)) x ie ie'.
Proof.
  intros isz osz W x oe we ie frozen HW Hx Ho Lw Li. rewrite fc_bp_run by (done || naive_solver).
  rewrite (bool_decide_false (is_Some None)) by (intros [? ?]; done). cbn [negb]. rewrite andb_true_r. cbn [fmap option_fmap option_map].
  eexists _, _. split; [done|]. unfold grad_added. rewrite !imap_length. split.
  - destruct frozen; [done|]. rewrite imap_length. split; [done|]. intros k Hk. eexists. split; [by rewrite el_imap|]. apply dense_partial_W; lia.
  - split; [done|]. intros k Hk. eexists. split; [by rewrite el_imap|]. apply dense_partial_x; lia.
Qed.

(** Noisy layers *)
Definition noisy (noise nw W : list R) : list R := imap (fun k w => el nw k * el noise k + w)%R W.
Lemma noisy_params_run noise nw W size new : length W = size -> length noise = size -> length nw = size -> length new = size ->
  noisy_params noise nw W size new = Some (noisy noise nw W).
Proof.
  intros HW Hn Hnw Hl. unfold noisy_params.
  pose proof (Pointwise_loop size size 0 (fun i new => a ← rd nw i; n ← rd noise i; w ← rd W i; wr new i (a * n + w)%R) (fun i _ => (el nw i * el noise i + el W i)%R) ltac:(lia)) as H.
  rewrite H; [|clear H; intros i Hi l Hll; rewrite !rd_el by lia; cbn [mbind option_bind]; rewrite (Pointwise_wr size i) by lia; done|done].
  f_equal. apply list_eq. intros k. unfold noisy. rewrite !list_lookup_imap. destruct (decide (k < size)) as [Hk|Hk].
  - rewrite !lookup_el by lia. cbn. rewrite decide_True by lia. by rewrite Nat.sub_0_r.
  - by rewrite !(lookup_ge_None_2 _ k) by lia.
Qed.
Theorem C24_noisy_forward : forall isz osz W b x nW nb noise noise_b new_w new_b,
  layer_shape isz osz W b x -> length nW = osz * isz -> length noise = osz * isz -> length new_w = osz * isz ->
  length nb = osz -> length noise_b = osz -> length new_b = osz ->
  noisy_fc_feed_forward noise_b nb noise nW x (replicate osz 0%R) W (Some b) new_w new_b isz osz =
    Some (dense isz osz (noisy noise nW W) (noisy noise_b nb b) x).
Proof.
  intros isz osz W b x nW nb noise noise_b new_w new_b (HW & Hb & Hx) H1 H2 H3 H4 H5 H6. unfold noisy_fc_feed_forward.
  rewrite (noisy_params_run noise nW W) by done. cbn [mbind option_bind]. rewrite (noisy_params_run noise_b nb b) by done. cbn [mbind option_bind].
  apply C24_forward_cleared. split; [|split; [|done]]; unfold noisy; by rewrite imap_length.
Qed.

Lemma noisy_bp_run isz osz x oe noise we nwe : length x = isz -> length oe = osz -> length noise = osz * isz ->
  length we = osz * isz -> length nwe = osz * isz ->
  noisy_bp_weights x oe noise (we, nwe) isz osz =
    Some (imap (fun k w => w + el oe (k / isz) * el x (k mod isz))%R we,
          imap (fun k n => n + (el we k + el oe (k / isz) * el x (k mod isz)) * el noise k)%R nwe).
Proof.
  intros Hx Ho Hn Lw Ln. unfold noisy_bp_weights.
  set (v := fun k => (el oe (k / isz) * el x (k mod isz))%R).
  (* the pair of loops has processed exactly the flat indices below m *)
  set (St := fun m : nat => (imap (fun k w => if decide (k < m)%nat then w + v k else w)%R we, imap (fun k n => if decide (k < m)%nat then n + (el we k + v k) * el noise k else n)%R nwe)).
  assert (Hstep : forall j i, j < osz -> i < isz ->
    (e ← rd oe j; x0 ← rd x i; we ← addat (St (j * isz + i)).1 (j * isz + i) (e * x0)%R;
     v ← rd we (j * isz + i); n ← rd noise (j * isz + i); nwe ← addat (St (j * isz + i)).2 (j * isz + i) (v * n)%R; Some (we, nwe)) = Some (St (j * isz + S i))).
  { intros j i Hj Hi. pose proof (flat_lt osz isz j i Hj Hi) as Hlt. set (k := j * isz + i) in *. unfold St. cbn [fst snd].
    rewrite (rd_el oe), (rd_el x) by lia. cbn [mbind option_bind].
    assert (Hv : (el oe j * el x i)%R = v k) by (unfold v, k; by rewrite flat_div, flat_mod). rewrite Hv.
    rewrite (Pointwise_addat (osz * isz) k (v k) Hlt) by (cbn; by rewrite imap_length). cbn [mbind option_bind fst snd]. rewrite imap_imap.
    rewrite (rd_el noise) by lia. rewrite rd_el by (rewrite imap_length; lia). rewrite el_imap by lia. cbn [mbind option_bind].
    rewrite (Pointwise_addat (osz * isz) k _ Hlt) by (by rewrite imap_length). rewrite imap_imap. cbn [mbind option_bind].
    replace (j * isz + S i) with (S k) by (unfold k; lia). do 2 f_equal.
    - apply imap_ext_lt. intros q w Hq _. destruct (decide (q = k)) as [->|Hne].
      + rewrite decide_False by lia. by rewrite decide_True by lia.
      + destruct (decide (q < k)), (decide (q < S k)); done || lia.
    - apply imap_ext_lt. intros q w Hq _. destruct (decide (q = k)) as [->|Hne].
      + repeat case_decide; done || lia.
      + destruct (decide (q < k)), (decide (q < S k)); done || lia. }
  assert (HS0 : (we, nwe) = St 0).
  { unfold St. f_equal; symmetry; (etransitivity; [|apply imap_id]); apply imap_ext_lt; intros; by rewrite decide_False by lia. }
  rewrite HS0.
  edestruct (for_loop_inv (fun j st => st = St (j * isz)) (fun j st => for_loop isz 0 (fun i (p : list R * list R) =>
    e ← rd oe j; x0 ← rd x i; we ← addat p.1 (j * isz + i) (e * x0)%R;
    v ← rd we (j * isz + i); n ← rd noise (j * isz + i); nwe ← addat p.2 (j * isz + i) (v * n)%R;
    Some (we, nwe)) st) osz 0 (St 0)) as (st & E & Hst).
  - done.
  - intros j st Hj ->.
    edestruct (for_loop_inv (fun i st => st = St (j * isz + i)) (fun i (p : list R * list R) =>
      e ← rd oe j; x0 ← rd x i; we ← addat p.1 (j * isz + i) (e * x0)%R;
      v ← rd we (j * isz + i); n ← rd noise (j * isz + i); nwe ← addat p.2 (j * isz + i) (v * n)%R;
      Some (we, nwe)) isz 0 (St (j * isz))) as (st & E & Hst).
    + by rewrite Nat.add_0_r.
    + intros i st Hi ->. eexists. split; [apply Hstep; lia|done].
    + eexists. split; [exact E|]. rewrite Hst. f_equal. lia.
  - rewrite E, Hst. unfold St. do 2 f_equal; apply imap_ext_lt; intros k w Hk _; by rewrite decide_True by lia.
Qed.
Lemma noisy_partial isz osz noise nW W b x oe k : k < osz * isz -> length W = osz * isz -> length nW = osz * isz ->
  has_partial (fun nW => inner osz oe (dense isz osz (noisy noise nW W) b x)) nW k (el oe (k / isz) * el x (k mod isz) * el noise k).
Proof.
  intros Hk HW Hn. unfold has_partial.
  assert (E : forall t, noisy noise (<[k := t]> nW) W = <[k := (t * el noise k + el W k)%R]> (noisy noise nW W)).
  { intros t. apply list_eq. intros i. unfold noisy. rewrite list_lookup_imap. destruct (decide (i = k)) as [->|Hne].
    - rewrite lookup_el by lia. cbn. rewrite el_upd_eq by lia. by rewrite list_lookup_insert by (rewrite imap_length; lia).
    - rewrite list_lookup_insert_ne by done. rewrite list_lookup_imap. destruct (W !! i); [|done]. cbn. by rewrite el_upd_ne. }
  eapply dlim_ext; [intros t; rewrite E; reflexivity|].
  pose proof (dense_partial_W isz osz (noisy noise nW W) b x oe k Hk) as H. unfold has_partial in H.
  assert (el (noisy noise nW W) k = (el nW k * el noise k + el W k)%R) as E2 by (unfold noisy; rewrite el_imap by lia; done). rewrite E2 in H.
  specialize (H ltac:(unfold noisy; by rewrite imap_length)).
  eapply dlim_val; [|apply (dlim_comp (fun t => t * el noise k + el W k)%R (fun u => inner osz oe (dense isz osz (<[k := u]> (noisy noise nW W)) b x)) (el nW k) (el noise k));
    [by apply (dlim_affine _ _ _ (el W k)); intros; lra|exact H]]. lra.
Qed.
(** the gradient of the noise weights is exact when the weight errors start from zero ... *)
Theorem C24_noisy_backward_partial : forall isz osz W b x nW noise oe nwe,
  layer_shape isz osz W b x -> length nW = osz * isz -> length noise = osz * isz -> length oe = osz -> length nwe = osz * isz ->
  exists we' nwe', noisy_bp_weights x oe noise (replicate (osz * isz) 0%R, nwe) isz osz = Some (we', nwe') /\
    grad_added (fun W => inner osz oe (dense isz osz (noisy noise nW W) b x)) W (replicate (osz * isz) 0%R) we' /\
    grad_added (fun nW => inner osz oe (dense isz osz (noisy noise nW W) b x)) nW nwe nwe'.
Proof.
  intros isz osz W b x nW noise oe nwe (HW & Hb & Hx) H1 H2 H3 H4. rewrite noisy_bp_run by (done || by rewrite replicate_length).
  eexists _, _. split; [done|]. unfold grad_added. rewrite !imap_length, !replicate_length. split; (split; [done|]); intros k Hk.
  - eexists. split; [rewrite el_imap by (rewrite replicate_length; lia); reflexivity|].
    unfold has_partial. assert (E : forall t, noisy noise nW (<[k := t]> W) = <[k := (el nW k * el noise k + t)%R]> (noisy noise nW W)).
    { intros t. apply list_eq. intros i. unfold noisy. rewrite list_lookup_imap. destruct (decide (i = k)) as [->|Hne].
      - rewrite list_lookup_insert by lia. cbn. by rewrite list_lookup_insert by (rewrite imap_length; lia).
      - rewrite !list_lookup_insert_ne by done. by rewrite list_lookup_imap. }
    eapply dlim_ext; [intros t; rewrite E; reflexivity|].
    pose proof (dense_partial_W isz osz (noisy noise nW W) b x oe k Hk) as H. unfold has_partial in H.
    assert (el (noisy noise nW W) k = (el nW k * el noise k + el W k)%R) as E2 by (unfold noisy; rewrite el_imap by lia; done). rewrite E2 in H.
    specialize (H ltac:(unfold noisy; by rewrite imap_length)).
    eapply dlim_val; [|apply (dlim_comp (fun t => el nW k * el noise k + t)%R (fun u => inner osz oe (dense isz osz (<[k := u]> (noisy noise nW W)) b x)) (el W k) 1%R);
      [apply (dlim_affine _ _ _ (el nW k * el noise k)%R); intros; lra|exact H]]. lra.
  - eexists. split; [rewrite el_imap by lia; rewrite el_replicate; rewrite Rplus_0_l; reflexivity|]. apply noisy_partial; lia.
Qed.
(** ... and wrong when weight errors of earlier instances have been accumulated (a mini-batch). *)
Theorem C24_noisy_backward_refuted :
  ~ (forall isz osz W b x nW noise oe we nwe,
  layer_shape isz osz W b x -> length nW = osz * isz -> length noise = osz * isz -> length oe = osz -> length we = osz * isz -> length nwe = osz * isz ->
  exists we' nwe', noisy_bp_weights x oe noise (we, nwe) isz osz = Some (we', nwe') /\
    grad_added (fun nW => inner osz oe (dense isz osz (noisy noise nW W) b x)) nW nwe nwe').
Proof.
  intros H. destruct (H 1 1 [1%R] [0%R] [1%R] [1%R] [1%R] [1%R] [1%R] [0%R]) as (we' & nwe' & E & _ & Hg); [by repeat split|done..|].
  rewrite noisy_bp_run in E by done. injection E as <- <-. destruct (Hg 0) as (d & Hd & Hp); [cbn; lia|].
  pose proof (noisy_partial 1 1 [1%R] [1%R] [1%R] [0%R] [1%R] [1%R] 0 ltac:(lia) eq_refl eq_refl) as Hq.
  pose proof (dlim_unique _ _ _ _ Hp Hq) as ->. unfold el in Hd. cbn in Hd. lra.
Qed.
(** Without biases the input error of a noisy layer ignores the noise. *)
Theorem C24_noisy_input_error_refuted :
  ~ (forall isz osz W x nW noise oe ie, length W = osz * isz -> length x = isz -> length nW = osz * isz -> length noise = osz * isz ->
     length oe = osz -> length ie = isz ->
     exists ie', noisy_bp_input oe (noisy noise nW W) W ie false isz osz = Some ie' /\
       grad_added (fun x => inner osz oe (dense isz osz (noisy noise nW W) no_bias x)) x ie ie').
Proof.
  intros H. destruct (H 1 1 [1%R] [1%R] [1%R] [1%R] [1%R] [0%R]) as (ie' & E & _ & Hg); [done..|].
  destruct (Hg 0) as (d & Hd & Hp); [cbn; lia|].
  pose proof (dense_partial_x 1 1 (noisy [1%R] [1%R] [1%R]) no_bias [1%R] [1%R] 0 ltac:(lia) eq_refl) as Hq.
  pose proof (dlim_unique _ _ _ _ Hp Hq) as Hd2. cbn in E. injection E as <-. unfold el in *. cbn in *. lra.
Qed.

Example C24_example : fc_feed_forward [1; 2]%R [0; 0; 0]%R [1; 0; 0; 1; 1; 1]%R (Some [10; 20; 30]%R) 2 3 = Some (dense 2 3 [1; 0; 0; 1; 1; 1] [10; 20; 30] [1; 2])%R /\
  exists we' ie' be', fc_back_prop [1; 2]%R [1; 1; 1]%R [1; 0; 0; 1; 1; 1]%R (replicate 6 0%R, [0; 0]%R, Some [0; 0; 0]%R) 2 3 false = Some (we', ie', Some be').
Proof.
  split.
  - apply (C24_forward_cleared 2 3). by repeat split.
  - destruct (C24_backward 2 3 [1; 0; 0; 1; 1; 1]%R [10; 20; 30]%R [1; 2]%R [1; 1; 1]%R (replicate 6 0%R) [0; 0]%R [0; 0; 0]%R false) as (a & b & c & E & _); [by repeat split|done..|]. eauto.
Qed.

(** C25.  [indices] is a permutation of all edges; the last [last_n] of them are selected. *)
Definition edges (isz osz : nat) (indices : list nat) : Prop := indices ≡ₚ seq 0 (osz * isz).
Definition selected (isz osz : nat) (indices : list nat) (last_n : nat) : list nat := drop (osz * isz - last_n) indices.

Lemma edges_facts isz osz indices : edges isz osz indices -> length indices = osz * isz /\ NoDup indices /\ (forall k, k ∈ indices -> k < osz * isz).
Proof.
  intros H. unfold edges in H. split; [by rewrite H, seq_length|]. split; [rewrite H; apply NoDup_seq|]. intros k. rewrite H, elem_of_seq. lia.
Qed.

(** forward = dense forward (without bias) with every unselected weight set to zero *)
Theorem C25_forward : forall isz osz W x out indices last_n,
  length W = osz * isz -> length x = isz -> length out = osz -> edges isz osz indices -> last_n <= osz * isz ->
  exists out', fc_edge_popup x out W isz osz indices last_n = Some out' /\
    fc_feed_forward x out (keep_only (selected isz osz indices last_n) W) None isz osz = Some out' /\
    length (selected isz osz indices last_n) = last_n /\
    forall j, j < osz -> el out' j = (el out j + el (dense isz osz (keep_only (selected isz osz indices last_n) W) no_bias x) j)%R.
Proof.
  intros isz osz W x out indices last_n HW Hx Ho He Hn. destruct (edges_facts _ _ _ He) as (Hl & Hnd & Hr).
  assert (HK : length (keep_only (selected isz osz indices last_n) W) = osz * isz) by (unfold keep_only; by rewrite imap_length).
  pose proof (edge_popup_adds isz osz x W (replicate osz 0%R) indices last_n Hx HW (replicate_length _ _) Hl Hnd Hr Hn osz (le_n _) out Ho) as E. cbn beta in E. rewrite E.
  eexists. split; [done|]. split; [|split].
  - rewrite (dense_zero_acc isz osz _ no_bias) by (done || naive_solver). f_equal. apply imap_ext_lt. intros j o Hj _. rewrite decide_True by lia.
    rewrite el_dense by lia. unfold no_bias. rewrite el_nil. unfold selected. lra.
  - unfold selected. rewrite drop_length, Hl. lia.
  - intros j Hj. rewrite el_imap by lia. rewrite decide_True by lia. rewrite el_dense by lia. unfold no_bias. rewrite el_nil. unfold selected. lra.
Qed.
(** hence two weight vectors that agree on the selected edges give the same output *)
Theorem C25_depends_only_on_selected : forall isz osz W W' x out indices last_n,
  length W = osz * isz -> length W' = osz * isz -> length x = isz -> length out = osz -> edges isz osz indices -> last_n <= osz * isz ->
  (forall k, k ∈ selected isz osz indices last_n -> W !! k = W' !! k) ->
  fc_edge_popup x out W isz osz indices last_n = fc_edge_popup x out W' isz osz indices last_n.
Proof.
  intros isz osz W W' x out indices last_n HW HW' Hx Ho He Hn Hag.
  destruct (C25_forward isz osz W x out indices last_n HW Hx Ho He Hn) as (o1 & E1 & F1 & _).
  destruct (C25_forward isz osz W' x out indices last_n HW' Hx Ho He Hn) as (o2 & E2 & F2 & _).
  rewrite E1, E2. rewrite <- F1, <- F2. f_equal. apply list_eq. intros k. unfold keep_only. rewrite !list_lookup_imap.
  destruct (decide (k ∈ selected isz osz indices last_n)) as [Hk|Hk].
  - by rewrite Hag.
  - destruct (decide (k < osz * isz)); [by rewrite !lookup_el by lia|by rewrite !(lookup_ge_None_2 _ k) by lia].
Qed.
(** Backward: the score error of every edge grows by the derivative with respect to a multiplicative gate on that
    edge (straight-through estimator: independent of the gate's value), the input error by the gradient of the
    masked forward pass. *)
Theorem C25_backward : forall isz osz W x oe ie score indices last_n gates,
  length W = osz * isz -> length x = isz -> length oe = osz -> length ie = isz -> length score = osz * isz -> length gates = osz * isz ->
  edges isz osz indices -> last_n <= osz * isz ->
  exists ie' score', fc_bp_edge_popup x oe W ie score isz osz indices last_n = Some (ie', score') /\
    grad_added (fun m => inner osz oe (dense isz osz (gate m W) no_bias x)) gates score score' /\
    grad_added (fun x => inner osz oe (dense isz osz (keep_only (selected isz osz indices last_n) W) no_bias x)) x ie ie'.
Proof.
  intros isz osz W x oe ie score indices last_n gates HW Hx Ho Li Ls Lg He Hn. destruct (edges_facts _ _ _ He) as (Hl & Hnd & Hr).
  unfold fc_bp_edge_popup. pose proof (score_adds isz osz x W oe indices last_n Hx HW Ho Hl Hn score Ls) as E1. cbn beta in E1. rewrite E1. cbn [mbind option_bind].
  pose proof (ep_input_adds isz osz x W oe indices last_n Hx HW Ho Hl Hnd Hr Hn ie Li) as E2. cbn beta in E2. rewrite E2. cbn [mbind option_bind].
  eexists _, _. split; [done|]. unfold grad_added. rewrite !imap_length. split; (split; [done|]); intros k Hk.
  - eexists. split; [by rewrite el_imap|]. apply dense_partial_gate; lia.
  - eexists. split; [by rewrite el_imap|]. apply dense_partial_x; lia.
Qed.
(** the variant that trains the weights under a fixed selection: exact gradient of the masked forward pass;
    unselected weights get no error *)
Theorem C25_backward_gd : forall isz osz W x oe ie we indices last_n,
  length W = osz * isz -> length x = isz -> length oe = osz -> length ie = isz -> length we = osz * isz ->
  edges isz osz indices -> last_n <= osz * isz ->
  exists ie' we', fc_bp_edge_popup_gd x oe W ie we isz osz indices last_n = Some (ie', we') /\
    grad_added (fun W => inner osz oe (dense isz osz (keep_only (selected isz osz indices last_n) W) no_bias x)) W we we' /\
    (forall k, ~ k ∈ selected isz osz indices last_n -> el we' k = el we k) /\
    grad_added (fun x => inner osz oe (dense isz osz (keep_only (selected isz osz indices last_n) W) no_bias x)) x ie ie'.
Proof.
  intros isz osz W x oe ie we indices last_n HW Hx Ho Li Lw He Hn. destruct (edges_facts _ _ _ He) as (Hl & Hnd & Hr).
  unfold fc_bp_edge_popup_gd. rewrite decide_False by lia.
  pose proof (ep_weight_adds isz osz x W oe indices last_n Hx HW Ho Hl Hnd Hr Hn we Lw) as E1. cbn beta in E1. rewrite E1. cbn [mbind option_bind].
  pose proof (ep_input_adds isz osz x W oe indices last_n Hx HW Ho Hl Hnd Hr Hn ie Li) as E2. cbn beta in E2. rewrite E2. cbn [mbind option_bind].
  eexists _, _. split; [done|]. unfold grad_added. rewrite !imap_length. split; [|split]; try (split; [done|]); intros k Hk.
  - eexists. split; [by rewrite el_imap|]. apply dense_partial_keep; lia.
  - destruct (decide (k < osz * isz)).
    + rewrite el_imap by lia. rewrite decide_False by done. lra.
    + rewrite !el_ge; [done|lia|rewrite imap_length; lia].
  - eexists. split; [by rewrite el_imap|]. apply dense_partial_x; lia.
Qed.
Example C25_example : edges 2 2 [3; 0; 2; 1] /\ selected 2 2 [3; 0; 2; 1] 2 = [2; 1] /\
  exists out', fc_edge_popup [1; 2]%R [0; 0]%R [5; 6; 7; 8]%R 2 2 [3; 0; 2; 1] 2 = Some out'.
Proof.
  assert (He : edges 2 2 [3; 0; 2; 1]).
  { unfold edges. apply NoDup_Permutation; [repeat constructor; set_solver|apply NoDup_seq|]. intros x. rewrite elem_of_seq. rewrite !elem_of_cons, elem_of_nil. lia. }
  split; [done|]. split; [done|]. destruct (C25_forward 2 2 [5; 6; 7; 8]%R [1; 2]%R [0; 0]%R [3; 0; 2; 1] 2) as (o & E & _); [done..|cbn; lia|]. eauto.
Qed.

(** C45 *)
Theorem C45_mat_mul : forall m1 m2 m3 s1 s2 s3, length m1 = s1 * s2 -> length m2 = s2 * s3 -> length m3 = s1 * s3 ->
  exists m3', mat_mul m1 m2 m3 s1 s2 s3 = Some m3' /\ length m3' = s1 * s3 /\
    forall r c, r < s1 -> c < s3 -> el m3' (r * s3 + c) = (el m3 (r * s3 + c) + sumn s2 (fun j => el m1 (r * s2 + j) * el m2 (j * s3 + c)))%R.
Proof.
  intros m1 m2 m3 s1 s2 s3 H1 H2 H3. unfold mat_mul.
  assert (HA : Adds (s1 * s3) (for_loop s1 0 (fun i m3 => for_loop s2 0 (fun j m3 => for_loop s3 0 (fun k m3 =>
    a ← rd m1 (i * s2 + j); b ← rd m2 (j * s3 + k); addat m3 (i * s3 + k) (a * b)%R) m3) m3))
    (fun q => sumn s1 (fun i => sumn s2 (fun j => sumn s3 (fun k => if decide (q = i * s3 + k) then (el m1 (i * s2 + j) * el m2 (j * s3 + k))%R else 0%R))))).
  { apply (Adds_loop (s1 * s3) s1 _ (fun i q => sumn s2 (fun j => sumn s3 (fun k => if decide (q = i * s3 + k) then (el m1 (i * s2 + j) * el m2 (j * s3 + k))%R else 0%R)))). intros i Hi.
    apply (Adds_loop (s1 * s3) s2 _ (fun j q => sumn s3 (fun k => if decide (q = i * s3 + k) then (el m1 (i * s2 + j) * el m2 (j * s3 + k))%R else 0%R))). intros j Hj.
    apply (Adds_loop (s1 * s3) s3 _ (fun k q => if decide (q = i * s3 + k) then (el m1 (i * s2 + j) * el m2 (j * s3 + k))%R else 0%R)). intros k Hk.
    pose proof (flat_lt s1 s2 i j Hi Hj). pose proof (flat_lt s2 s3 j k Hj Hk). pose proof (flat_lt s1 s3 i k Hi Hk).
    eapply Adds_body; [intros l Hl; rewrite !rd_el by lia; cbn [mbind option_bind]; reflexivity|]. by apply Adds_at. }
  eexists. split; [exact (HA m3 H3)|]. rewrite imap_length. split; [done|]. intros r c Hr Hc. pose proof (flat_lt s1 s3 r c Hr Hc).
  rewrite el_imap by lia. f_equal.
  rewrite (sumn_ext s1 _ (fun i => sumn s3 (fun k => if decide (r * s3 + c = i * s3 + k) then sumn s2 (fun j => el m1 (i * s2 + j) * el m2 (j * s3 + k))%R else 0%R))).
  2:{ intros i Hi. rewrite sumn_swap. apply sumn_ext. intros k Hk. destruct (decide (r * s3 + c = i * s3 + k)); [done|]. by apply sumn_0. }
  rewrite (sumn_hit s1 s3 (r * s3 + c) (fun i k => sumn s2 (fun j => el m1 (i * s2 + j) * el m2 (j * s3 + k))%R)) by done.
  by rewrite flat_div, flat_mod.
Qed.

Definition componentwise (g : R -> R -> R) (a b out out' : list R) (size : nat) : Prop :=
  length out' = length out /\ (forall i, i < size -> el out' i = g (el a i) (el b i)) /\ (forall i, size <= i -> out' !! i = out !! i).
Lemma map2_componentwise f g a b out size : size <= length a -> size <= length b -> size <= length out ->
  (forall i, i < size -> f (el a i) (el b i) = Some (g (el a i) (el b i))) ->
  exists out', map2_array f a b out size = Some out' /\ componentwise g a b out out' size.
Proof.
  intros Ha Hb Ho Hf. destruct (C23_array_versions f a b out size Ha Hb Ho) as (o & E & Hl & H1 & H2).
  { intros i x y Hi Hx Hy. pose proof (Hf i Hi) as Hv. rewrite (el_lookup _ _ _ Hx), (el_lookup _ _ _ Hy) in Hv. rewrite Hv. eauto. }
  exists o. split; [done|]. split; [done|]. split; [|done]. intros i Hi. apply el_lookup.
  rewrite (H1 i (el a i) (el b i)); [by apply Hf|done|apply lookup_el; lia..].
Qed.
Theorem C45_elementwise : forall a b out size, size <= length a -> size <= length b -> size <= length out ->
  (exists o, dot1D a b out size = Some o /\ componentwise Rmult a b out o size) /\
  (exists o, sum1D a b out size = Some o /\ componentwise Rplus a b out o size) /\
  (exists o, sub1D a b out size = Some o /\ componentwise Rminus a b out o size) /\
  ((forall i, i < size -> el b i <> 0%R) -> exists o, div1D a b out size = Some o /\ componentwise Rdiv a b out o size).
Proof.
  intros a b out size Ha Hb Ho. split; [|split; [|split]].
  - by apply map2_componentwise.
  - by apply map2_componentwise.
  - by apply map2_componentwise.
  - intros Hz. apply map2_componentwise; [done..|]. intros i Hi. rewrite decide_False by auto. done.
Qed.
(** writing the result over the first argument gives the same values *)
Theorem C45_in_place : forall f g a b size, size <= length a -> size <= length b ->
  (forall i, i < size -> f (el a i) (el b i) = Some (g (el a i) (el b i))) ->
  map2_inplace f a b size = map2_array f a b a size /\
  exists o, map2_inplace f a b size = Some o /\ componentwise g a b a o size.
Proof.
  intros f g a b size Ha Hb Hf. destruct (map2_componentwise f g a b a size Ha Hb Ha Hf) as (o & E & Hc).
  assert (Hin : map2_inplace f a b size = Some o); [|rewrite Hin; split; [done|eauto]].
  destruct (for_loop_inv (fun i c => c = imap (fun k x => if decide (k < i) then g (el a k) (el b k) else x) a)
    (fun i a => x ← rd a i; y ← rd b i; v ← f x y; wr a i v) size 0 a) as (c & Ec & Hcc).
  - symmetry. etransitivity; [|apply imap_id]. apply imap_ext_lt. intros. by rewrite decide_False by lia.
  - intros i c Hi ->. rewrite (rd_el b) by lia. rewrite rd_el by (rewrite imap_length; lia). rewrite el_imap by lia. rewrite decide_False by lia.
    cbn [mbind option_bind]. rewrite Hf by lia. cbn [mbind option_bind].
    eexists. split; [apply (Pointwise_wr (length a) i _ ltac:(lia)); by rewrite imap_length|]. rewrite imap_imap. apply imap_ext_lt. intros k x Hk Hx.
    destruct (decide (k = i)) as [->|]; [by rewrite decide_True by lia|]. destruct (decide (k < i)), (decide (k < S i)); done || lia.
  - unfold map2_inplace. rewrite Ec. f_equal. destruct Hc as (Hl & H1 & H2). apply list_eq. intros k. rewrite Hcc, list_lookup_imap. rewrite Nat.add_0_l.
    destruct (decide (k < size)).
    + rewrite (lookup_el a) by lia. rewrite (lookup_el o) by lia. cbn [fmap option_fmap option_map]. by rewrite H1.
    + rewrite H2 by lia. by destruct (a !! k).
Qed.
Theorem C45_scale_and_shift : forall a v out size, size <= length a -> size <= length out ->
  (exists o, mul_value a v out size = Some o /\ componentwise (fun x _ => x * v)%R a a out o size) /\
  (exists o, add_value a v out size = Some o /\ componentwise (fun x _ => x + v)%R a a out o size).
Proof.
  intros a v out size Ha Ho. split.
  - destruct (C22_array_versions (fun x => x * v)%R a out size Ha Ho) as (o & E & Hl & H1 & H2). exists o. split; [done|]. split; [done|]. split; [|done].
    intros i Hi. apply el_lookup. apply (H1 i (el a i)); [done|]. apply lookup_el. lia.
  - destruct (C22_array_versions (fun x => x + v)%R a out size Ha Ho) as (o & E & Hl & H1 & H2). exists o. split; [done|]. split; [done|]. split; [|done].
    intros i Hi. apply el_lookup. apply (H1 i (el a i)); [done|]. apply lookup_el. lia.
Qed.
Example C45_example : exists m, mat_mul [1; 2; 3; 4]%R [5; 6; 7; 8]%R [0; 0; 0; 0]%R 2 2 2 = Some m /\ el m 3 = 50%R.
Proof.
  destruct (C45_mat_mul [1; 2; 3; 4]%R [5; 6; 7; 8]%R [0; 0; 0; 0]%R 2 2 2 eq_refl eq_refl eq_refl) as (m & E & _ & H). exists m. split; [done|].
  pose proof (H 1 1 ltac:(lia) ltac:(lia)) as H'. cbn [Nat.mul Nat.add] in H'. rewrite H'. unfold el. cbn. lra.
Qed.

Print Assumptions C24_backward.
Print Assumptions C25_backward.
Print Assumptions C45_mat_mul.
