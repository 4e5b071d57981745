(** C29: what the LSTM forward pass computes.  C30: its back-propagation, through cells, layers and time, is the exact
    gradient; the input error it hands to what lies below is not. *)
From Coquelicot Require Import Coquelicot.
From Verif Require Import NumLib3 Act_Model Act_Props Lstm_Model Lstm_Spec Lstm_Proofs Lstm_Bptt Lstm_Window.
Open Scope R_scope.

(** C29: lstm_ff never leaves its arrays and computes the LSTM equations (on a cleared z) *)
Theorem C29_cell_equations : forall x h c cl hd w u b n m,
  length x = n -> length h = m -> length c = m -> length cl = m -> length hd = m ->
  qlen (m * n) w -> qlen (m * m) u -> qlen m b ->
  exists z' cl' hd', lstm_ff x h c cl hd w u b (qzeros m) n m = Some (z', cl', hd') /\ length cl' = m /\ length hd' = m /\
    let a := affine w u b n m x h in
    (forall g i, (i < m)%nat -> el (at_gate z' g) i = a g i) /\
    (forall i, (i < m)%nat -> el cl' i = logi (a Forget i) * el c i + logi (a Input i) * tanh (a Candidate i)) /\
    (forall i, (i < m)%nat -> el hd' i = logi (a Output i) * tanh (el cl' i)).
Proof.
  intros x h c cl hd w u b n m Hx Hh Hc Hcl Hhd Hw Hu Hb.
  destruct (lstm_ff_run x h c cl hd w u b (qzeros m) n m) as (z' & cl' & hd' & E & Hz & Hl1 & Hl2 & H1 & H2 & H3); try done; [apply qzeros_len|].
  exists z', cl', hd'. split; [done|]. split; [done|]. split; [done|]. cbv zeta.
  assert (H0 : forall g i, el (at_gate (qzeros m) g) i = 0) by (intros [] i; cbn; apply el_replicate).
  assert (H0' : forall g i, el (at_gate (qzeros m) g) i + affine w u b n m x h g i = affine w u b n m x h g i) by (intros; rewrite H0; lra).
  split; [intros; rewrite H1 by done; apply H0'|].
  assert (Hcl' : forall i, (i < m)%nat -> el cl' i = new_cell (affine w u b n m x h) c i) by (intros; rewrite H2 by done; by apply new_cell_ext).
  split; [exact Hcl'|]. intros i Hi. rewrite H3, Hcl' by done. by apply new_hidden_ext.
Qed.
Print Assumptions C29_cell_equations.

Lemma logi_range x : 0 < logi x < 1.
Proof. rewrite <- sigmoid_logi. pose proof (C22_ranges x) as H. tauto. Qed.
Lemma tanh_range x : -1 < tanh x < 1.
Proof. rewrite <- C22_tanhh_is_tanh. pose proof (C22_ranges x) as H. tauto. Qed.
Lemma hidden_bound a c i : Rabs (new_hidden a c i) < 1.
Proof.
  unfold new_hidden. rewrite Rabs_mult. pose proof (logi_range (a Output i)). pose proof (tanh_range (new_cell a c i)).
  rewrite (Rabs_pos_eq (logi _)) by lra. assert (Rabs (tanh (new_cell a c i)) < 1) by (apply Rabs_def1; lra). pose proof (Rabs_pos (tanh (new_cell a c i))). nra.
Qed.
Lemma cell_bound a c i : Rabs (new_cell a c i) < Rabs (el c i) + 1.
Proof.
  unfold new_cell. eapply Rle_lt_trans; [apply Rabs_triang|]. rewrite !Rabs_mult. pose proof (logi_range (a Forget i)). pose proof (logi_range (a Input i)). pose proof (tanh_range (a Candidate i)).
  rewrite !(Rabs_pos_eq (logi _)) by lra. assert (Rabs (tanh (a Candidate i)) < 1) by (apply Rabs_def1; lra). pose proof (Rabs_pos (tanh (a Candidate i))). pose proof (Rabs_pos (el c i)). nra.
Qed.
(** C29: whatever the weights and the inputs, for every stack of layers and every length of the window, at time t every
    hidden value is inside (-1, 1) and every cell value is less than t+1 away from the range K of the initial cells *)
Theorem C29_states_bounded : forall ls prev inputs css K n m,
  stack_ok n ls m -> Forall2 state_ok ls prev -> Forall (fun x => length x = n) inputs ->
  (forall p, p ∈ prev -> forall i, Rabs (el p.2 i) <= K) ->
  ff_rmodel_lstm ls prev inputs = Some css ->
  length css = length inputs /\
  forall t j cs ce, css !! t = Some cs -> cs !! j = Some ce -> forall i, Rabs (el (c_hid ce) i) < 1 /\ Rabs (el (c_cell ce) i) < K + INR (S t).
Proof.
  assert (Hstep : forall ls n m x prev cs K, stack_ok n ls m -> length x = n -> Forall2 state_ok ls prev -> (0 <= K) -> (forall p, p ∈ prev -> forall i, Rabs (el p.2 i) <= K) ->
    ff_time ls x prev = Some cs -> Forall2 state_ok ls (states cs) /\ forall j ce, cs !! j = Some ce -> forall i, Rabs (el (c_hid ce) i) < 1 /\ Rabs (el (c_cell ce) i) < K + 1).
  { induction ls as [|l ls IH]; intros n m x prev cs K Hst Hx Hprev HK0 HK E.
    - injection E as <-. split; [constructor|]. intros j ce H. done.
    - inversion Hprev as [|? p ? prev' [Hp1 Hp2] Hprev']; subst. destruct Hst as (Hl & Hin & Hst). cbn [ff_time] in E.
      destruct (ff_layer_run l x p.1 p.2) as (ce & Ef & Est & Hzl & Hz); try done. rewrite Ef in E. cbn [mbind option_bind] in E.
      pose proof (layer_step_len l x p.1 p.2) as (Len1 & Len2 & Len3).
      assert (E1 : c_hid ce = (layer_step l x p.1 p.2).1.1) by (rewrite <- Est; done).
      assert (E2 : c_cell ce = (layer_step l x p.1 p.2).1.2) by (rewrite <- Est; done).
      assert (E3 : c_up ce = (layer_step l x p.1 p.2).2) by (rewrite <- Est; done).
      destruct (ff_time ls (c_up ce) prev') as [cs'|] eqn:Ecs; [|done]. cbn [mbind option_bind] in E. injection E as <-.
      destruct (IH (l_out l) m (c_up ce) prev' cs' K) as [I1 I2]; try done; [by rewrite E3|intros q Hq; apply HK; by apply elem_of_cons; right|].
      split; [cbn; constructor; [split; cbn; [rewrite E1|rewrite E2]; done|done]|].
      intros [|j] ce' Hj i; [|by eapply I2]. injection Hj as <-.
      destruct (decide (i < l_out l)%nat).
      + rewrite E1, E2. unfold layer_step. cbn [fst snd]. rewrite !el_map_seq by done. split; [apply hidden_bound|].
        eapply Rlt_le_trans; [apply cell_bound|]. pose proof (HK p ltac:(by apply elem_of_cons; left) i). lra.
      + rewrite !el_ge by (rewrite ?E1, ?E2, ?Len1, ?Len2; lia). rewrite Rabs_R0. lra. }
  assert (Hgen : forall inputs ls prev css K n m, 0 <= K ->
    stack_ok n ls m -> Forall2 state_ok ls prev -> Forall (fun x => length x = n) inputs ->
    (forall p, p ∈ prev -> forall i, Rabs (el p.2 i) <= K) ->
    ff_rmodel_lstm ls prev inputs = Some css ->
    length css = length inputs /\
    forall t j cs ce, css !! t = Some cs -> cs !! j = Some ce -> forall i, Rabs (el (c_hid ce) i) < 1 /\ Rabs (el (c_cell ce) i) < K + INR (S t)).
  { induction inputs as [|x inputs IH]; intros ls prev css K n m HK0 Hst Hprev Hin HK E.
    - injection E as <-. split; [done|]. intros. done.
    - cbn [ff_rmodel_lstm] in E. destruct (ff_time ls x prev) as [cs|] eqn:Et; [|done]. cbn [mbind option_bind] in E.
      inversion Hin as [|? ? Hx Hin']; subst.
      destruct (Hstep ls (length x) m x prev cs K) as [S1 S2]; try done.
      destruct (ff_rmodel_lstm ls (states cs) inputs) as [css'|] eqn:Ew; [|done]. injection E as <-.
      destruct (IH ls (states cs) css' (K + 1) (length x) m) as [I1 I2]; try done; [lra| |].
      { intros p Hp i. apply elem_of_list_fmap in Hp as (ce & -> & Hce). apply elem_of_list_lookup in Hce as [j Hj]. cbn. left. by eapply S2. }
      split; [cbn; by f_equal|]. intros [|t] j cs2 ce H1 H2 i.
      + injection H1 as <-. destruct (S2 j ce H2 i). cbn [INR]. split; [done|]. lra.
      + destruct (I2 t j cs2 ce H1 H2 i) as [B1 B2]. split; [done|]. rewrite (S_INR (S t)). lra. }
  intros ls prev inputs css K n m Hst Hprev Hin HK E.
  destruct prev as [|p prev].
  - inversion Hprev; subst. clear -E. revert css E. induction inputs as [|x inputs IH]; intros css E.
    + injection E as <-. split; [done|]. intros; done.
    + cbn in E. destruct (ff_rmodel_lstm [] [] inputs) as [r|] eqn:Er; [|done]. injection E as <-. destruct (IH r eq_refl) as [I1 I2]. split; [cbn; by f_equal|].
      intros [|t] j cs ce H1 H2 i; [injection H1 as <-; done|]. destruct (I2 t j cs ce H1 H2 i) as [B1 B2]. split; [done|]. rewrite (S_INR (S t)). lra.
  - eapply Hgen; try done. eapply Rle_trans; [apply (Rabs_pos (el p.2 0))|]. apply HK. by apply elem_of_cons; left.
Qed.
Print Assumptions C29_states_bounded.

Global Instance gate_eq : EqDecision gate.
Proof. solve_decision. Defined.
Global Instance param_eq : EqDecision param.
Proof. solve_decision. Defined.
Definition unit_inc (q : param) (g : gate) (k : nat) : inc_t := fun q' g' k' => if decide (q' = q /\ g' = g /\ k' = k) then 1 else 0.

Lemma set_get l q g v q' g' : get_p (set_p l q g v) q' g' = if decide (q' = q /\ g' = g) then v else get_p l q' g'.
Proof. destruct q, q', g, g'; cbn; try (rewrite decide_True by done); try (rewrite decide_False by (intros [? ?]; done)); done. Qed.
Lemma set_curve l q g k : (k < length (get_p l q g))%nat ->
  lcurve (el (get_p l q g) k) (fun s => set_p l q g (<[k := s]> (get_p l q g))) l (unit_inc q g k).
Proof.
  intros Hk. split; [|split].
  - rewrite upd_self. destruct l, q, g; cbn; try done; destruct l_w; destruct l_u; destruct l_b; done.
  - intros s. destruct q; done.
  - intros q' g' k'. unfold unit_inc.
    assert (E : forall s, el (get_p (set_p l q g (<[k:=s]> (get_p l q g))) q' g') k' = if decide (q' = q /\ g' = g /\ k' = k) then s else el (get_p l q' g') k').
    { intros s. rewrite set_get. destruct (decide (q' = q /\ g' = g)) as [[-> ->]|Hne].
      - rewrite el_upd by done. destruct (decide (k' = k)) as [->|]; [rewrite decide_True by done; done|]. rewrite decide_False by tauto. done.
      - rewrite decide_False by tauto. done. }
    eapply dlim_ext; [exact E|]. destruct (decide (q' = q /\ g' = g /\ k' = k)); [apply dlim_id|apply dlim_const].
Qed.
Lemma pair_unit n m q g k inc : (k < psize n m q)%nat -> pair_ n m (unit_inc q g k) inc = inc q g k.
Proof.
  intros Hk. unfold pair_.
  assert (H : forall q' g', sumn (psize n m q') (fun k' => unit_inc q g k q' g' k' * inc q' g' k') = if decide (q' = q /\ g' = g) then inc q g k else 0).
  { intros q' g'. destruct (decide (q' = q /\ g' = g)) as [[-> ->]|Hne].
    - rewrite (sumn_single _ k); [|done|]; unfold unit_inc; [rewrite decide_True by done; lra|]. intros i Hi Hne. rewrite decide_False by tauto. lra.
    - apply sumn_0. intros i Hi. unfold unit_inc. rewrite decide_False by tauto. lra. }
  unfold sump, sumg. rewrite !H. destruct q, g; repeat (rewrite decide_True by done) || (rewrite decide_False by (intros [? ?]; done)); lra.
Qed.

(** <dy, hidden state> of one cell vector *)
Definition out_loss (l : lstm) (x h c dy : list R) : R :=
  sumn (l_out l) (fun i => el dy i * new_hidden (affine (l_w l) (l_u l) (l_b l) (l_in l) (l_out l) x h) c i).
(** C30, one cell vector (flag 0): the backward pass adds to the errors of W, U and b of each of the four gates exactly
    the partial derivatives of <dy, hidden state> *)
Theorem C30_cell : forall l x h c dy gr,
  layer_ok l -> length x = l_in l -> length h = l_out l -> length c = l_out l -> length dy = l_out l -> grads_ok l gr ->
  let n := l_in l in let m := l_out l in
  exists z cl hd st, lstm_ff x h c (zeros m) (zeros m) (l_w l) (l_u l) (l_b l) (qzeros m) n m = Some (z, cl, hd) /\
    lstm_bp 0 n m 0 gr (l_u l) z dy x cl h c None None None None None [] [] = Some st /\ s_dy st = dy /\
    forall q g, grad_added (fun v => out_loss (set_p l q g v) x h c dy) (get_p l q g) (get_g gr q g) (get_g (s_grads st) q g).
Proof.
  intros l x h c dy gr (Hw & Hu & Hb & Hup & Hr) Hx Hh Hc Hdy (Hgw & Hgu & Hgb) n m.
  destruct (C29_cell_equations x h c (zeros m) (zeros m) (l_w l) (l_u l) (l_b l) n m) as (z & cl & hd & E & Hcl & Hhd & Hz & Hcv & Hhv); try done; try apply zeros_length.
  destruct (lstm_ff_run x h c (zeros m) (zeros m) (l_w l) (l_u l) (l_b l) (qzeros m) n m) as (z2 & cl2 & hd2 & E' & Hzl & _); try done; try apply zeros_length; [apply qzeros_len|].
  rewrite E in E'. injection E' as <- <- <-.
  destruct (bp_cells_run x cl h c z None None n m gr (qzeros m) dy (fun _ => 0)) as (gr' & d & dy' & B0 & B1 & B2 & B3 & B4 & B5 & B6 & B7 & B8); try done; [apply qzeros_len|].
  assert (Hdy' : dy' = dy).
  { clear -B0. assert (H : forall k i0 st st', for_loop k i0 (bp_cell x cl h c z None None n m) st = Some st' -> s_dy st' = s_dy st).
    { induction k as [|k IH]; intros i0 st st' H; cbn in H; [by injection H as <-|].
      apply bind_Some in H as (s1 & E1 & H). rewrite (IH _ _ _ H). unfold bp_cell in E1. cbv zeta in E1.
      repeat (apply bind_Some in E1 as (? & _ & E1)). by injection E1 as <-. }
    apply H in B0. done. }
  exists z, cl, hd, (BpState gr' d dy'). split; [exact E|]. split; [exact B0|]. split; [exact Hdy'|]. cbn [s_grads].
  assert (Hlen : forall q g, length (get_p l q g) = psize n m q) by (intros [] g; cbn; [apply Hw|apply Hu|apply Hb]).
  assert (Hlen1 : forall q g, length (get_g gr q g) = psize n m q) by (intros [] g; cbn; [apply Hgw|apply Hgu|apply Hgb]).
  assert (Hlen2 : forall q g, length (get_g gr' q g) = psize n m q) by (intros [] g; cbn; [apply B1|apply B2|apply B3]).
  intros q g. split; [by rewrite Hlen1, Hlen2|]. intros k Hk. rewrite Hlen1 in Hk. exists (ginc d z x h n m q g k). split.
  { destruct q; [apply B6|apply B7|apply B8]; exact Hk. }
  unfold has_partial.
  destruct (cell_adjoint (el (get_p l q g) k) (fun s => set_p l q g (<[k := s]> (get_p l q g))) l (unit_inc q g k) (fun _ => x) (fun _ => 0) (fun _ => h) (fun _ => 0) (fun _ => c) (fun _ => 0))
    as (hh & cc & H1 & H2 & H3); [apply set_curve; by rewrite Hlen|by (intros ? ?; apply dlim_const)..|].
  assert (Eout : forall s, out_loss (set_p l q g (<[k:=s]> (get_p l q g))) x h c dy =
    sumn m (fun i => el dy i * new_hidden (affine (l_w (set_p l q g (<[k:=s]> (get_p l q g)))) (l_u (set_p l q g (<[k:=s]> (get_p l q g)))) (l_b (set_p l q g (<[k:=s]> (get_p l q g)))) n m x h) c i)).
  { intros s. unfold out_loss. destruct q; done. }
  eapply dlim_ext; [exact Eout|]. eapply dlim_val; cycle 1.
  - apply (dlim_sumn m (fun i s => el dy i * new_hidden (affine (l_w (set_p l q g (<[k:=s]> (get_p l q g)))) (l_u (set_p l q g (<[k:=s]> (get_p l q g)))) (l_b (set_p l q g (<[k:=s]> (get_p l q g)))) n m x h) c i)).
    intros i Hi. apply dlim_scal. by apply H1.
  - pose proof (set_curve l q g k ltac:(by rewrite Hlen)) as (E0 & _). cbv beta in E0.
    pose proof (H3 d z (el dy) (fun _ => 0)) as H4. rewrite E0 in H4. fold n m in H4. rewrite (pair_unit n m q g k) in H4 by done.
    rewrite (sumn_ext m (fun i => el dy i * hh i + 0 * cc i) (fun i => el dy i * hh i)) in H4 by (intros; ring). rewrite H4.
    + rewrite !sumn_0 by (intros; ring). ring.
    + exact Hz.
    + intros i Hi. pose proof (B5 i Hi) as B5i. cbv zeta in Hcv. rewrite (Hcv i Hi) in B5i. exact B5i.
Qed.
Print Assumptions C30_cell.

Lemma Forall3_lookup_2 {A B C} (P : A -> B -> C -> Prop) l k k' : length l = length k -> length k' = length k ->
  (forall i x y z, l !! i = Some x -> k !! i = Some y -> k' !! i = Some z -> P x y z) -> Forall3 P l k k'.
Proof.
  revert k k'. induction l as [|x l IH]; intros [|y k] [|z k'] H1 H2 H; try done; constructor.
  - by apply (H 0%nat).
  - apply IH; [by injection H1|by injection H2|]. intros i a b c. apply (H (S i)).
Qed.
Lemma pairs_unit ls j l q g k : forall incs inc, ls !! j = Some l -> incs !! j = Some inc -> length incs = length ls -> (k < psize (l_in l) (l_out l) q)%nat ->
  pairs ls (imap (fun i _ => if decide (i = j) then unit_inc q g k else fun _ _ _ => 0) ls) incs = inc q g k.
Proof.
  assert (H0 : forall ls incs, pairs ls (map (fun _ => (fun _ _ _ => 0) : inc_t) ls) incs = 0).
  { induction ls0 as [|l0 ls0 IH]; intros [|i incs]; cbn; try done. rewrite IH. unfold pair_, sump, sumg. rewrite !sumn_0 by (intros; ring). ring. }
  revert j. induction ls as [|l0 ls IH]; intros j incs inc Hl Hi Hlen Hk; [done|]. destruct incs as [|i0 incs]; [done|]. injection Hlen as Hlen.
  destruct j as [|j]; cbn [imap pairs].
  - injection Hl as ->. injection Hi as ->. rewrite decide_True by done. rewrite pair_unit by done.
    assert (E : imap ((λ (i : nat) (_ : lstm), if decide (i = 0)%nat then unit_inc q g k else λ _ _ _, 0) ∘ S) ls = map (fun _ => (fun _ _ _ => 0) : inc_t) ls).
    { apply list_eq. intros i. rewrite list_lookup_imap, list_lookup_fmap. destruct (ls !! i); done. }
    rewrite E, H0. lra.
  - rewrite decide_False by done. unfold pair_ at 1, sump, sumg. rewrite !sumn_0 by (intros; ring).
    assert (E : imap ((λ (i : nat) (_ : lstm), if decide (i = S j)%nat then unit_inc q g k else λ _ _ _, 0) ∘ S) ls = imap (λ (i : nat) (_ : lstm), if decide (i = j)%nat then unit_inc q g k else λ _ _ _, 0) ls).
    { apply imap_ext_lt. intros i x Hi' _. cbn. destruct (decide (i = j)) as [->|]; [by rewrite decide_True|]. rewrite decide_False by congruence. done. }
    rewrite E, (IH j incs inc) by done. ring.
Qed.

(** C30: for every stack of LSTM layers with any dropout masks, every window of at least two time steps, all inputs,
    initial states and errors: bp_rmodel_lstm after ff_rmodel_lstm adds to the errors of every parameter of every layer
    exactly the partial derivative of the sum over time of <error, output of the top layer> *)
Theorem C30_back_propagation_through_time : forall ls prev inputs errs grs n m,
  stack_ok n ls m -> (2 <= length inputs)%nat -> length errs = length inputs ->
  Forall (fun x => length x = n) inputs -> Forall (fun e => length e = m) errs -> Forall2 state_ok ls prev -> Forall2 grads_ok ls grs ->
  exists css ds grs', ff_rmodel_lstm ls prev inputs = Some css /\ bp_rmodel_lstm ls prev inputs css errs grs = Some (ds, grs') /\ Forall2 grads_ok ls grs' /\
    forall j l gr gr', ls !! j = Some l -> grs !! j = Some gr -> grs' !! j = Some gr' ->
      forall q g, grad_added (fun v => loss m (<[j := set_p l q g v]> ls) prev inputs errs) (get_p l q g) (get_g gr q g) (get_g gr' q g).
Proof.
  intros ls prev inputs errs grs n m Hst Hwin Hlen Hin Herr Hprev Hgr.
  assert (Hne : inputs <> []) by (destruct inputs; cbn in Hwin; [lia|done]).
  destruct (window_run 0 ls inputs n m prev errs grs) as (cs & css & ds & grs' & incs & W1 & W2 & W3 & W4 & W5 & _); try done.
  exists (cs :: css), ds, grs'. split; [done|]. unfold bp_rmodel_lstm. rewrite decide_False by lia. split; [done|]. split; [done|].
  intros j l gr gr' Hl Hg Hg' q g.
  assert (Hok : layer_ok l).
  { clear -Hst Hl. revert n j Hst Hl. induction ls as [|l0 ls IH]; intros n j Hst Hl; [done|]. destruct Hst as (H1 & _ & H2). destruct j; [by injection Hl as <-|by eapply IH]. }
  assert (Hgok : grads_ok l gr) by exact (Forall2_lookup_lr _ _ _ j _ _ Hgr Hl Hg).
  assert (Hgok' : grads_ok l gr') by exact (Forall2_lookup_lr _ _ _ j _ _ W3 Hl Hg').
  assert (Hlenp : length (get_p l q g) = psize (l_in l) (l_out l) q) by (destruct Hok as (A1 & A2 & A3 & _), q; cbn; [apply A1|apply A2|apply A3]).
  assert (Hleng : length (get_g gr q g) = psize (l_in l) (l_out l) q) by (destruct Hgok as (A1 & A2 & A3), q; cbn; [apply A1|apply A2|apply A3]).
  assert (Hleng' : length (get_g gr' q g) = psize (l_in l) (l_out l) q) by (destruct Hgok' as (A1 & A2 & A3), q; cbn; [apply A1|apply A2|apply A3]).
  split; [by rewrite Hleng, Hleng'|]. intros k Hk. rewrite Hleng in Hk.
  destruct (window_run (el (get_p l q g) k) ls inputs n m prev errs grs) as (cs2 & css2 & ds2 & grs2 & incs2 & W1' & W2' & W3' & W4' & W5' & W6); try done.
  rewrite W1 in W1'. injection W1' as <- <-. rewrite W2 in W2'. injection W2' as <- <-.
  assert (Hinc : exists inc, incs2 !! j = Some inc /\ el (get_g gr' q g) k = el (get_g gr q g) k + inc q g k).
  { clear -W5' Hl Hg Hg' Hk. revert j grs incs2 grs' W5' Hl Hg Hg'. induction ls as [|l0 ls IH]; intros j [|g0 grs] [|i0 incs] [|g1 grs'] Ha Hl Hg Hg'; cbn in Ha; try done.
    destruct Ha as [Ha1 Ha2]. destruct j as [|j]; [|by eapply (IH j)]. injection Hl as ->. injection Hg as ->. injection Hg' as ->. exists i0. split; [done|]. by apply Ha1. }
  destruct Hinc as (inc & Hi1 & Hi2). exists (inc q g k). split; [done|]. unfold has_partial.
  set (Ls := imap (fun i l0 => fun s : R => if decide (i = j) then set_p l q g (<[k := s]> (get_p l q g)) else l0) ls).
  set (pcs := map (fun p : list R * list R => ((fun _ : R => p.1), (fun _ : R => p.2))) prev).
  assert (Eat : forall s, at_s s pcs = prev). { intros s. unfold at_s, pcs. rewrite map_map. cbn. clear. induction prev as [|[? ?] ? IH]; cbn; [done|]. by f_equal. }
  assert (ELs : forall s, ls_at s Ls = <[j := set_p l q g (<[k := s]> (get_p l q g))]> ls).
  { intros s. unfold ls_at, Ls. apply list_eq. intros i. rewrite list_lookup_fmap, list_lookup_imap. destruct (decide (i = j)) as [->|Hne'].
    - rewrite Hl. cbn [fmap option_fmap option_map]. rewrite list_lookup_insert; [done|]. by eapply lookup_lt_Some.
    - rewrite list_lookup_insert_ne by done. destruct (ls !! i); done. }
  assert (E : forall s, loss m (<[j := set_p l q g (<[k := s]> (get_p l q g))]> ls) prev inputs errs = loss m (ls_at s Ls) (at_s s pcs) inputs errs) by (intros; by rewrite Eat, ELs).
  eapply dlim_ext; [exact E|]. eapply dlim_val; cycle 1.
  - apply (W6 Ls (imap (fun i _ => if decide (i = j) then unit_inc q g k else fun _ _ _ => 0) ls) pcs (map (fun _ => ((fun _ => 0), (fun _ => 0))) prev)).
    + unfold Ls. apply Forall3_lookup_2; [by rewrite imap_length|by rewrite imap_length|].
      intros i L l' dW. rewrite !list_lookup_imap. intros HL Hl' HdW. rewrite Hl' in HL, HdW. cbn [fmap option_fmap option_map] in HL, HdW. injection HL as <-. injection HdW as <-.
      destruct (decide (i = j)) as [->|].
      * rewrite Hl in Hl'. injection Hl' as <-. apply set_curve. by rewrite Hlenp.
      * split; [done|]. split; [done|]. intros. apply dlim_const.
    + by rewrite Eat.
    + unfold pcs. clear -Hprev. induction Hprev as [|l0 p ls prev [H1 H2] H IH]; cbn; constructor; [|done]. split; [done|]. split; unfold vcurve; cbn [fst snd]; intros ? ?; apply dlim_const.
  - rewrite (pairs_unit ls j l q g k incs2 inc) by (done || (by eapply added_length)).
    assert (H0 : forall (ls : list lstm) pl (pv : list (list R * list R)), adj ls pl (map (fun _ => ((fun _ => 0), (fun _ => 0))) pv) = 0).
    { clear. induction ls as [|l ls IH]; intros [|p pl] [|v pv]; cbn; try done. rewrite IH. rewrite sumn_0; [lra|]. intros. cbn. lra. }
    rewrite H0. lra.
Qed.
Print Assumptions C30_back_propagation_through_time.

(** with a window of one time step the C code reads past the end of its arrays, whatever the network *)
Theorem C30_window_of_one_is_undefined : forall ls prev x css errs grs, bp_rmodel_lstm ls prev [x] css errs grs = None.
Proof. done. Qed.

Lemma dinput_gate_run w t n m : length w = (m * n)%nat -> length t = m ->
  exists r, dinput_gate w t n m = Some r /\ length r = n /\ forall j, (j < n)%nat -> el r j = if decide (m = 0)%nat then 0 else el w ((m - 1) * n + j) * el t (m - 1).
Proof.
  intros Hw Ht. unfold dinput_gate.
  destruct (for_loop_inv (fun k r => length r = n /\ forall j, (j < n)%nat -> el r j = if decide (k = 0)%nat then 0 else el w ((k - 1) * n + j) * el t (k - 1))
    (fun k t3 => for_loop n 0 (fun k2 t3 => a ← rd w (k * n + k2)%nat; tk ← rd t k; wr t3 k2 (a * tk)) t3) m 0 (zeros n)) as (r & E & H1 & H2).
  - split; [apply zeros_length|]. intros. rewrite decide_True by done. apply el_replicate.
  - intros k r Hk [H1 H2].
    destruct (for_loop_inv (fun k2 r' => length r' = n /\ forall j, (j < n)%nat -> el r' j = if decide (j < k2)%nat then el w (k * n + j) * el t k else el r j)
      (fun k2 t3 => a ← rd w (k * n + k2)%nat; tk ← rd t k; wr t3 k2 (a * tk)) n 0 r) as (r' & E & G1 & G2).
    + split; [done|]. intros. rewrite decide_False by lia. done.
    + intros k2 r' Hk2 [G1 G2].
      assert (k * n + k2 < m * n)%nat by nia.
      rewrite (rd_el w), (rd_el t) by lia. cbn [mbind option_bind]. rewrite wr_Some by lia. eexists. split; [done|]. rewrite insert_length. split; [done|].
      intros j Hj. rewrite el_upd by lia. destruct (decide (j = k2)) as [->|]; [rewrite decide_True by lia; done|]. rewrite G2 by done. repeat case_decide; lia || done.
    + rewrite E. eexists. split; [done|]. split; [done|]. intros j Hj. rewrite G2 by done. rewrite decide_True by lia. rewrite decide_False by lia. cbn. by rewrite Nat.sub_0_r.
  - exists r. split; [done|]. split; [done|]. cbn in H2. exact H2.
Qed.
Lemma el_sum1D a b j : length a = length b -> el (sum1D a b) j = el a j + el b j.
Proof.
  revert b j. induction a as [|x a IH]; intros [|y b] j H; try done; [destruct j; cbn; lra|]. destruct j; [done|]. cbn. injection H as H. exact (IH b j H).
Qed.
Lemma sum1D_length a b : length a = length b -> length (sum1D a b) = length a.
Proof. intros H. unfold sum1D. rewrite zip_with_length. lia. Qed.

(** what lstm_dinput computes, for all inputs: only the weights of the last cell are taken into account, and the
    candidate gate uses the derivative of the sigmoid *)
Theorem C30_input_error_computed : forall d z w n m, (0 < m)%nat -> qlen (m * n) w -> qlen m d -> qlen m z ->
  exists r, lstm_dinput d z w n m = Some r /\ length r = n /\
  forall j, (j < n)%nat -> let k := (m - 1)%nat in let e := (k * n + j)%nat in
    el r j = el (q_c w) e * (sigmoid (el (q_i z) k) * el (q_c d) k * derivative_sigmoid (el (q_c z) k)) +
             el (q_o w) e * (el (q_o d) k * derivative_sigmoid (el (q_o z) k)) +
             el (q_i w) e * (el (q_i d) k * derivative_sigmoid (el (q_i z) k)) +
             el (q_f w) e * (el (q_f d) k * derivative_sigmoid (el (q_f z) k)).
Proof.
  intros d z w n m Hm Hw Hd Hz. unfold lstm_dinput.
  pose proof (Hw Forget) as W1. pose proof (Hw Input) as W2. pose proof (Hw Output) as W3. pose proof (Hw Candidate) as W4. cbn [at_gate] in *.
  edestruct (dinput_gate_run (q_c w) (map (fun k => sigmoid (el (q_i z) k) * el (q_c d) k * derivative_sigmoid_given_the_sigmoid (sigmoid (el (q_c z) k))) (seq 0 m)) n m) as (r1 & E1 & L1 & H1); [done|by rewrite map_length, seq_length|].
  edestruct (dinput_gate_run (q_o w) (map (fun k => el (q_o d) k * derivative_sigmoid (el (q_o z) k)) (seq 0 m)) n m) as (r2 & E2 & L2 & H2); [done|by rewrite map_length, seq_length|].
  edestruct (dinput_gate_run (q_i w) (map (fun k => el (q_i d) k * derivative_sigmoid (el (q_i z) k)) (seq 0 m)) n m) as (r3 & E3 & L3 & H3); [done|by rewrite map_length, seq_length|].
  edestruct (dinput_gate_run (q_f w) (map (fun k => el (q_f d) k * derivative_sigmoid (el (q_f z) k)) (seq 0 m)) n m) as (r4 & E4 & L4 & H4); [done|by rewrite map_length, seq_length|].
  rewrite E1. cbn [mbind option_bind]. rewrite E2. cbn [mbind option_bind]. rewrite E3. cbn [mbind option_bind]. rewrite E4. cbn [mbind option_bind].
  eexists. split; [reflexivity|]. pose proof (zeros_length n) as L0.
  split; [rewrite !sum1D_length; rewrite ?sum1D_length; rewrite ?sum1D_length; rewrite ?sum1D_length; congruence|].
  intros j Hj. rewrite !el_sum1D; rewrite ?sum1D_length; rewrite ?sum1D_length; rewrite ?sum1D_length; try congruence.
  rewrite H1, H2, H3, H4 by done. rewrite !decide_False by lia. rewrite !el_map_seq by lia. cbn [Nat.add]. unfold zeros. rewrite el_replicate.
  unfold derivative_sigmoid, derivative_sigmoid_given_the_sigmoid. ring.
Qed.
Print Assumptions C30_input_error_computed.

(** the derivative of <dy, hidden state> with respect to the input of the cell *)
Theorem C30_input_gradient : forall l x h c dy gr z cl hd st,
  layer_ok l -> length x = l_in l -> length h = l_out l -> length c = l_out l -> length dy = l_out l -> grads_ok l gr ->
  let n := l_in l in let m := l_out l in
  lstm_ff x h c (zeros m) (zeros m) (l_w l) (l_u l) (l_b l) (qzeros m) n m = Some (z, cl, hd) ->
  lstm_bp 0 n m 0 gr (l_u l) z dy x cl h c None None None None None [] [] = Some st ->
  forall j, (j < n)%nat -> has_partial (fun v => out_loss l v h c dy) x j (flow (s_d st) z (l_w l) m n j).
Proof.
  intros l x h c dy gr z cl hd st (Hw & Hu & Hb & Hup & Hr) Hx Hh Hc Hdy (Hgw & Hgu & Hgb) n m E B j Hj.
  destruct (C29_cell_equations x h c (zeros m) (zeros m) (l_w l) (l_u l) (l_b l) n m) as (z2 & cl2 & hd2 & E' & Hcl & Hhd & Hz & Hcv & Hhv); try done; try apply zeros_length.
  rewrite E in E'. injection E' as <- <- <-.
  destruct (lstm_ff_run x h c (zeros m) (zeros m) (l_w l) (l_u l) (l_b l) (qzeros m) n m) as (z2 & cl2 & hd2 & E' & Hzl & _); try done; try apply zeros_length; [apply qzeros_len|].
  rewrite E in E'. injection E' as <- <- <-.
  destruct (bp_cells_run x cl h c z None None n m gr (qzeros m) dy (fun _ => 0)) as (gr' & d & dy' & B0 & B1 & B2 & B3 & B4 & B5 & B6 & B7 & B8); try done; [apply qzeros_len|].
  cbn [lstm_bp] in B. rewrite B0 in B. injection B as <-. cbn [s_d].
  unfold has_partial.
  destruct (cell_adjoint (el x j) (fun _ => l) l (fun _ _ _ => 0) (fun s => <[j := s]> x) (fun k => if decide (k = j) then 1 else 0) (fun _ => h) (fun _ => 0) (fun _ => c) (fun _ => 0))
    as (hh & cc & H1 & H2 & H3).
  - split; [done|]. split; [done|]. intros. apply dlim_const.
  - intros k Hk. assert (Ek : forall s, el (<[j:=s]> x) k = if decide (k = j) then s else el x k).
    { intros s. destruct (decide (k = j)) as [->|]; [apply el_upd_eq; lia|by apply el_upd_ne]. }
    eapply dlim_ext; [exact Ek|]. destruct (decide (k = j)); [apply dlim_id|apply dlim_const].
  - intros ? ?; apply dlim_const.
  - intros ? ?; apply dlim_const.
  - eapply dlim_val; cycle 1.
    + unfold out_loss. apply (dlim_sumn m (fun i s => el dy i * new_hidden (affine (l_w l) (l_u l) (l_b l) n m (<[j:=s]> x) h) c i)).
      intros i Hi. apply dlim_scal. by apply H1.
    + cbv beta in H3. rewrite upd_self in H3. fold n m in H3.
      pose proof (H3 d z (el dy) (fun _ => 0)) as H4. cbv beta in H4.
      rewrite (sumn_ext m (fun i => el dy i * hh i + 0 * cc i) (fun i => el dy i * hh i)) in H4 by (intros; ring). rewrite H4.
      * unfold pair_, sump, sumg. rewrite !(sumn_0 (psize _ _ _)) by (intros; ring). rewrite !(sumn_0 m) by (intros; ring).
        rewrite (sumn_single n j) by (done || (intros i Hi Hne; rewrite decide_False by done; ring)). rewrite decide_True by done. ring.
      * exact Hz.
      * intros i Hi. pose proof (B5 i Hi) as B5i. cbv zeta in Hcv. rewrite (Hcv i Hi) in B5i. exact B5i.
Qed.
Print Assumptions C30_input_gradient.

(** a layer of m cells with one input, where only the candidate gate looks at the input *)
Definition one_input (m : nat) (wc : list R) : lstm :=
  Lstm 1 m (Quad (zeros m) (zeros m) (zeros m) wc) (qzeros (m * m)) (qzeros m) (replicate m 1) (replicate m 1).
Lemma one_input_ok m wc : length wc = m -> layer_ok (one_input m wc).
Proof.
  intros H. unfold layer_ok, one_input, qlen. cbn. rewrite !replicate_length. rewrite Nat.mul_1_r.
  repeat split; try (intros []; cbn; rewrite ?zeros_length; done).
Qed.
Lemma sigmoid_0 : sigmoid 0 = / 2.
Proof. rewrite sigmoid_logi. unfold logi. rewrite Ropp_0, exp_0. lra. Qed.
Lemma tanh_0 : tanh 0 = 0.
Proof. unfold tanh, sinh. rewrite Ropp_0. unfold Rdiv. rewrite Rminus_eq_0. ring. Qed.
Lemma tanhh_0 : tanhh 0 = 0.
Proof. rewrite C22_tanhh_is_tanh. apply tanh_0. Qed.
(** C30 refuted for the error handed down to the input: for every such layer and zero states the derivative of the sum
    of the hidden values with respect to the input is the sum of the weights over 4, while lstm_dinput returns the last
    weight over 16 *)
Theorem C30_input_error_refuted : forall m wc, (0 < m)%nat -> length wc = m ->
  let l := one_input m wc in let dy := replicate m 1 in
  exists gr z cl hd st r, grads_ok l gr /\
    lstm_ff [0] (zeros m) (zeros m) (zeros m) (zeros m) (l_w l) (l_u l) (l_b l) (qzeros m) 1 m = Some (z, cl, hd) /\
    lstm_bp 0 1 m 0 gr (l_u l) z dy [0] cl (zeros m) (zeros m) None None None None None [] [] = Some st /\
    lstm_dinput (s_d st) z (l_w l) 1 m = Some r /\
    has_partial (fun v => out_loss l v (zeros m) (zeros m) dy) [0] 0 (sumn m (el wc) / 4) /\
    el r 0 = el wc (m - 1) / 16.
Proof.
  intros m wc Hm Hwc l dy. pose proof (one_input_ok m wc Hwc) as Hok.
  set (gr := Grads (qzeros (m * 1)) (qzeros (m * m)) (qzeros m)).
  assert (Hgr : grads_ok l gr). { unfold grads_ok, gr, l, one_input. cbn [g_w g_u g_b l_in l_out]. repeat split; apply qzeros_len. }
  destruct (C29_cell_equations [0] (zeros m) (zeros m) (zeros m) (zeros m) (l_w l) (l_u l) (l_b l) 1 m) as (z & cl & hd & E & Hcl & Hhd & Hz & Hcv & Hhv);
    try apply zeros_length; try apply Hok; try done.
  destruct (lstm_ff_run [0] (zeros m) (zeros m) (zeros m) (zeros m) (l_w l) (l_u l) (l_b l) (qzeros m) 1 m) as (z2 & cl2 & hd2 & E' & Hzl & _);
    try apply zeros_length; try apply Hok; try done; try apply qzeros_len.
  rewrite E in E'. injection E' as <- <- <-.
  destruct (bp_cells_run [0] cl (zeros m) (zeros m) z None None 1 m gr (qzeros m) dy (fun _ => 0)) as (gr' & d & dy' & B0 & B1 & B2 & B3 & B4 & B5 & _);
    try apply zeros_length; try apply qzeros_len; try done; [apply replicate_length|].
  assert (Ha : forall g i, affine (l_w l) (l_u l) (l_b l) 1 m [0] (zeros m) g i = 0).
  { intros g i. unfold affine. rewrite (sumn_0 m) by (intros; unfold zeros; rewrite el_replicate; ring). cbn [sumn]. cbn [el nth].
    assert (Hb : el (at_gate (l_b l) g) i = 0) by (destruct g; cbn; apply el_replicate). rewrite Hb. unfold el. cbn. ring. }
  assert (Hz0 : forall g i, (i < m)%nat -> el (at_gate z g) i = 0) by (intros; rewrite Hz by done; apply Ha).
  assert (Hcl0 : forall i, (i < m)%nat -> el cl i = 0).
  { intros i Hi. rewrite Hcv by done. cbv zeta. rewrite !Ha. unfold zeros. rewrite el_replicate, tanh_0. ring. }
  assert (Hd : forall i, (i < m)%nat -> el (q_o d) i = 0 /\ el (q_c d) i = /2 /\ el (q_i d) i = 0 /\ el (q_f d) i = 0).
  { intros i Hi. destruct (B5 i Hi) as (D1 & D2 & D3 & D4). rewrite (Hcl0 i Hi), tanhh_0 in D1. rewrite (Hcl0 i Hi), (Hz0 Output i Hi : el (q_o z) i = 0), sigmoid_0 in D2.
    rewrite (Hz0 Candidate i Hi : el (q_c z) i = 0), tanhh_0 in D3. unfold zeros in D4. rewrite el_replicate in D4. unfold derivative_tanhh in D2. rewrite tanhh_0 in D2.
    assert (Hdy : el dy i = 1) by (unfold el; apply nth_lookup_Some; by apply lookup_replicate_2). rewrite Hdy in D1, D2.
    rewrite D1, D3, D4, D2. repeat split; ring || lra. }
  destruct (C30_input_error_computed d z (l_w l) 1 m) as (r & R1 & R2 & R3); try done; [apply Hok|].
  exists gr, z, cl, hd, (BpState gr' d dy'), r. split; [done|]. split; [exact E|]. split; [exact B0|]. split; [exact R1|]. split.
  - assert (Hf : flow d z (l_w l) m 1 0 = sumn m (el wc) / 4).
    { unfold flow. unfold Rdiv. rewrite <- sumn_scal_r. apply sumn_ext. intros i Hi. destruct (Hd i Hi) as (D1 & D2 & D3 & D4).
      unfold sumg, delta. cbn [at_gate]. rewrite D1, D2, D3, D4. rewrite (Hz0 Input i Hi : el (q_i z) i = 0), (Hz0 Candidate i Hi : el (q_c z) i = 0), sigmoid_0.
      unfold derivative_tanhh. rewrite tanhh_0. unfold l, one_input. cbn [l_w q_c]. rewrite Nat.mul_1_r, Nat.add_0_r. field. }
    rewrite <- Hf. eapply (C30_input_gradient l [0] (zeros m) (zeros m) dy gr z cl hd (BpState gr' d dy')); try done; try apply zeros_length; [apply replicate_length|cbn; lia].
  - rewrite R3 by lia. destruct (Hd (m - 1)%nat) as (D1 & D2 & D3 & D4); [lia|]. rewrite D1, D2, D3, D4.
    rewrite (Hz0 Input (m - 1)%nat ltac:(lia) : el (q_i z) (m - 1) = 0). unfold derivative_sigmoid. rewrite (Hz0 Candidate (m - 1)%nat ltac:(lia) : el (q_c z) (m - 1) = 0), sigmoid_0.
    unfold l, one_input. cbn [l_w q_c]. rewrite Nat.mul_1_r, Nat.add_0_r. field.
Qed.
Print Assumptions C30_input_error_refuted.
(** the two differ, already for one cell, and for two cells of which only the first looks at the input *)
Example C30_input_error_wrong_one : sumn 1 (el [1]) / 4 <> el [1] (1 - 1) / 16.
Proof. unfold el. cbn. lra. Qed.
Example C30_input_error_wrong_two : sumn 2 (el [1; 0]) / 4 <> el [1; 0] (2 - 1) / 16.
Proof. unfold el. cbn. lra. Qed.

(** two stacked layers (2 inputs, 3 cells, then 1 cell) over a window of 2 meet the hypotheses of C30, with a dropped
    connection in the masks *)
Example C30_hypotheses_met :
  let l1 := Lstm 2 3 (qzeros 6) (qzeros 9) (Quad [1;2;3] [0;0;1] [1;1;1] [-1;0;1]) [1;0;1] [1;1;1] in
  let l2 := Lstm 3 1 (Quad [1;2;3] [4;5;6] [1;0;1] [2;2;2]) (qzeros 1) (qzeros 1) [1] [0] in
  stack_ok 2 [l1; l2] 1 /\ Forall2 state_ok [l1; l2] [([0;0;0],[0;0;0]); ([0],[0])] /\
  Forall2 grads_ok [l1; l2] [Grads (qzeros 6) (qzeros 9) (qzeros 3); Grads (qzeros 3) (qzeros 1) (qzeros 1)].
Proof.
  cbv zeta. split; [|split].
  - repeat split; try (intros []; reflexivity).
  - repeat constructor.
  - repeat constructor; intros []; reflexivity.
Qed.
