(** Layers, time steps and windows: the model's forward pass is the specification's and its backward pass is the
    adjoint of it. *)
From Verif Require Import NumLib3 Act_Model Act_Props Lstm_Model Lstm_Spec Lstm_Proofs Lstm_Bptt.
Open Scope R_scope.

Lemma list_el_eq (a b : list R) : length a = length b -> (forall k, (k < length a)%nat -> el a k = el b k) -> a = b.
Proof.
  intros Hl H. apply list_eq. intros k. destruct (decide (k < length a)%nat).
  - rewrite !lookup_el by lia. by rewrite H.
  - rewrite !lookup_ge_None_2 by lia. done.
Qed.
Lemma el_masked m mask v i : (i < m)%nat -> el (masked m mask v) i = el mask i * el v i.
Proof. intros. unfold masked. by rewrite el_map_seq. Qed.
Lemma masked_length m mask v : length (masked m mask v) = m.
Proof. unfold masked. by rewrite map_length, seq_length. Qed.
Lemma zeros_length m : length (zeros m) = m.
Proof. apply replicate_length. Qed.
Lemma qzeros_len m : qlen m (qzeros m).
Proof. intros []; apply zeros_length. Qed.
Lemma dropout_run m mask v out : length mask = m -> length v = m -> length out = m -> get_dropout_array m mask v out = Some (masked m mask v).
Proof.
  intros Hm Hv Ho. unfold get_dropout_array.
  assert (HP : Pointwise m (for_loop m 0 (fun i out => m0 ← rd mask i; x ← rd v i; wr out i (m0 * x))) (fun k x => if decide (0 <= k < 0 + m)%nat then el mask (k - 0)%nat * el v (k - 0)%nat else x)).
  { apply (Pointwise_loop m m 0 _ (fun i _ => el mask i * el v i)); [lia|]. intros i Hi l Hl. rewrite !rd_el by lia. cbn [mbind option_bind].
    apply (Pointwise_wr m i (el mask i * el v i) Hi l Hl). }
  rewrite (HP out Ho). f_equal. apply list_el_eq; [by rewrite imap_length, masked_length|]. intros k Hk. rewrite imap_length in Hk. rewrite el_imap by lia.
  rewrite decide_True by lia. rewrite el_masked by lia. by rewrite Nat.sub_0_r.
Qed.

(** z of a layer *)
Definition pre (l : lstm) (x h : list R) (g : gate) (i : nat) : R := affine (l_w l) (l_u l) (l_b l) (l_in l) (l_out l) x (masked (l_out l) (l_right l) h) g i.
Lemma new_cell_ext a a' c i : (forall g, a g i = a' g i) -> new_cell a c i = new_cell a' c i.
Proof. intros H. unfold new_cell. by rewrite !H. Qed.
Lemma new_hidden_ext a a' c i : (forall g, a g i = a' g i) -> new_hidden a c i = new_hidden a' c i.
Proof. intros H. unfold new_hidden. rewrite (new_cell_ext a a') by done. by rewrite !H. Qed.
Lemma ff_layer_run l x h c : layer_ok l -> length x = l_in l -> length h = l_out l -> length c = l_out l ->
  exists ce, ff_layer l x h c = Some ce /\ (c_hid ce, c_cell ce, c_up ce) = layer_step l x h c /\ qlen (l_out l) (c_z ce) /\
    forall g i, (i < l_out l)%nat -> el (at_gate (c_z ce) g) i = pre l x h g i.
Proof.
  intros (Hw & Hu & Hb & Hup & Hr) Hx Hh Hc. unfold ff_layer.
  rewrite dropout_run by (done || apply zeros_length). cbn [mbind option_bind].
  destruct (lstm_ff_run x (masked (l_out l) (l_right l) h) c (zeros (l_out l)) (zeros (l_out l)) (l_w l) (l_u l) (l_b l) (qzeros (l_out l)) (l_in l) (l_out l))
    as (z & cl & hd & -> & Hz & Hcl & Hhd & Hvz & Hvc & Hvh); try done; try apply zeros_length; try apply masked_length; try apply qzeros_len.
  cbn [mbind option_bind fst snd]. rewrite dropout_run by (done || apply zeros_length). cbn [mbind option_bind]. eexists. split; [reflexivity|].
  assert (H0 : forall g i, el (at_gate (qzeros (l_out l)) g) i = 0) by (intros [] i; cbn; apply el_replicate).
  cbn [c_hid c_cell c_up c_z]. unfold layer_step. cbv zeta.
  assert (Eh : hd = map (new_hidden (affine (l_w l) (l_u l) (l_b l) (l_in l) (l_out l) x (masked (l_out l) (l_right l) h)) c) (seq 0 (l_out l))).
  { apply list_el_eq; [by rewrite map_length, seq_length|]. intros k Hk. rewrite el_map_seq by lia. rewrite Hvh by lia. apply new_hidden_ext. intros g. rewrite H0. lra. }
  assert (Ec : cl = map (new_cell (affine (l_w l) (l_u l) (l_b l) (l_in l) (l_out l) x (masked (l_out l) (l_right l) h)) c) (seq 0 (l_out l))).
  { apply list_el_eq; [by rewrite map_length, seq_length|]. intros k Hk. rewrite el_map_seq by lia. rewrite Hvc by lia. apply new_cell_ext. intros g. rewrite H0. lra. }
  rewrite <- Eh, <- Ec. split; [done|]. split; [done|]. intros g i Hi. rewrite Hvz by done. rewrite H0. unfold pre. lra.
Qed.
Lemma layer_step_len l x h c : length (layer_step l x h c).1.1 = l_out l /\ length (layer_step l x h c).1.2 = l_out l /\ length (layer_step l x h c).2 = l_out l.
Proof. unfold layer_step. cbn. by rewrite !map_length, !seq_length, masked_length. Qed.

(** the error on hidden entry j and on cell entry j that come from the next time *)
Definition GH (l : lstm) (plus : option (quad * quad)) (j : nat) : R :=
  match plus with Some (d, z) => flow d z (l_u l) (l_out l) (l_out l) j * el (l_right l) j | None => 0 end.
Definition GC (plus : option (quad * quad)) (j : nat) : R :=
  match plus with Some (d, z) => el (q_c d) j * sigmoid (el (q_f z) j) | None => 0 end.
Definition plus_ok (l : lstm) (plus : option (quad * quad)) : Prop :=
  match plus with Some (d, z) => qlen (l_out l) d /\ qlen (l_out l) z | None => True end.
(** the error on output entry j that comes from above *)
Definition GX (up : option (quad * quad * quad * nat)) (m : nat) (err : list R) (j : nat) : R :=
  match up with Some (d, z, w, mup) => flow d z w mup m j | None => el err j end.
Definition up_ok (m : nat) (up : option (quad * quad * quad * nat)) (err : list R) : Prop :=
  match up with Some (d, z, w, mup) => qlen mup d /\ qlen mup z /\ qlen (mup * m) w | None => length err = m end.
Definition d_rel (m : nat) (d z : quad) (ct cm : list R) (A N : nat -> R) : Prop :=
  forall i, (i < m)%nat -> el (q_o d) i = A i * tanhh (el ct i) /\
           el (q_c d) i = A i * sigmoid (el (q_o z) i) * derivative_tanhh (el ct i) + N i /\
           el (q_i d) i = el (q_c d) i * tanhh (el (q_c z) i) /\ el (q_f d) i = el (q_c d) i * el cm i.
Lemma d_rel_ext m d z ct cm A N A' : (forall i, (i < m)%nat -> A i = A' i) -> d_rel m d z ct cm A N -> d_rel m d z ct cm A' N.
Proof. intros H Hd i Hi. rewrite <- (H i Hi). by apply Hd. Qed.

Lemma bp_layer_run l x p c err gr up plus :
  layer_ok l -> length x = l_in l -> state_ok l p -> qlen (l_out l) (c_z c) -> length (c_cell c) = l_out l -> grads_ok l gr -> plus_ok l plus -> up_ok (l_out l) up err ->
  exists d gr', bp_layer l x p c err gr up plus = Some (d, gr') /\ qlen (l_out l) d /\ grads_ok l gr' /\
    d_rel (l_out l) d (c_z c) (c_cell c) p.2 (fun i => GX up (l_out l) err i * el (l_up l) i + GH l plus i) (GC plus) /\
    forall q g k, (k < psize (l_in l) (l_out l) q)%nat -> el (get_g gr' q g) k = el (get_g gr q g) k + ginc d (c_z c) x (masked (l_out l) (l_right l) p.1) (l_in l) (l_out l) q g k.
Proof.
  intros (Hw & Hu & Hb & Hup & Hr) Hx [Hh Hc] Hz Hct (Hgw & Hgu & Hgb) Hplus Hu'. unfold bp_layer. set (m := l_out l) in *. set (n := l_in l) in *.
  assert (Hdx : exists dx, match up with None => get_dropout_array m (l_up l) err (zeros m) | Some _ => Some (zeros m) end = Some dx /\ length dx = m /\
     forall i, (i < m)%nat -> el dx i = match up with None => el (l_up l) i * el err i | Some _ => 0 end).
  { destruct up as [t|].
    - exists (zeros m). split; [done|]. split; [apply zeros_length|]. intros. apply el_replicate.
    - exists (masked m (l_up l) err). rewrite dropout_run by (done || apply zeros_length). split; [done|]. split; [apply masked_length|]. intros. by apply el_masked. }
  destruct Hdx as (dx & -> & Hdxl & Hdx). cbn [mbind option_bind]. rewrite (dropout_run m (l_right l) p.1) by (done || apply zeros_length). cbn [mbind option_bind].
  set (h2 := masked m (l_right l) p.1). assert (Hh2 : length h2 = m) by apply masked_length.
  assert (Hgoal : forall st A, (exists gr' d dy', st = Some (BpState gr' d dy') /\
    qlen (m * n) (g_w gr') /\ qlen (m * m) (g_u gr') /\ qlen m (g_b gr') /\ qlen m d /\
    (forall i, (i < m)%nat -> el (q_o d) i = (A i * tanhh (el (c_cell c) i)) /\
       el (q_c d) i = (A i * sigmoid (el (q_o (c_z c)) i) * derivative_tanhh (el (c_cell c) i) + GC plus i) /\
       el (q_i d) i = (el (q_c d) i * tanhh (el (q_c (c_z c)) i)) /\ el (q_f d) i = (el (q_c d) i * el p.2 i)) /\
    (forall g k, (k < m * n)%nat -> el (at_gate (g_w gr') g) k = (el (at_gate (g_w gr) g) k + delta d (c_z c) g (k / n)%nat * el x (k mod n)%nat)) /\
    (forall g k, (k < m * m)%nat -> el (at_gate (g_u gr') g) k = (el (at_gate (g_u gr) g) k + delta d (c_z c) g (k / m)%nat * el h2 (k mod m)%nat)) /\
    (forall g k, (k < m)%nat -> el (at_gate (g_b gr') g) k = (el (at_gate (g_b gr) g) k + delta d (c_z c) g k))) ->
    (forall i, (i < m)%nat -> A i = GX up m err i * el (l_up l) i + GH l plus i) ->
    exists d gr', (st ← st; Some (s_d st, s_grads st)) = Some (d, gr') /\ qlen m d /\ grads_ok l gr' /\
    d_rel m d (c_z c) (c_cell c) p.2 (fun i => GX up m err i * el (l_up l) i + GH l plus i) (GC plus) /\
    forall q g k, (k < psize n m q)%nat -> el (get_g gr' q g) k = el (get_g gr q g) k + ginc d (c_z c) x h2 n m q g k).
  { intros st A (gr' & d & dy' & -> & G1 & G2 & G3 & G4 & G5 & G6 & G7 & G8) HA. cbn [mbind option_bind s_d s_grads]. exists d, gr'. split; [done|]. split; [done|]. split; [done|].
    split; [exact (d_rel_ext _ _ _ _ _ A _ _ HA G5)|]. intros [] g k Hk; [apply G6|apply G7|apply G8]; exact Hk. }
  assert (HN : forall i, (i < m)%nat -> match plus with
         | Some (d_plus, z_plus) => dcp ← rd (q_c d_plus) i; zfp ← rd (q_f z_plus) i; Some (dcp * sigmoid zfp)
         | None => Some 0 end = Some (GC plus i)).
  { intros i Hi. destruct plus as [[dp zp]|]; [|done]. destruct Hplus as [Hd1 Hz1]. pose proof (Hd1 Candidate) as E1. pose proof (Hz1 Forget) as E2. cbn [at_gate] in E1, E2.
    rewrite (rd_el (q_c dp)), (rd_el (q_f zp)) by (fold m in E1, E2; lia). done. }
  destruct up as [[[[d' z'] w'] mup]|], plus as [[dp zp]|]; cbn [fmap option_fmap option_map fst snd bp_flag lstm_bp mbind option_bind] in *.
  - (* flag 3 *) destruct Hplus as [Hd1 Hz1]. destruct Hu' as (Hd2 & Hz2 & Hw2).
    rewrite (dy_plus_adds dp zp (l_u l) m (l_right l)) by done. cbn [mbind option_bind].
    rewrite (dy_up_adds d' z' w' mup m (Some (l_up l))) by (done || (by rewrite imap_length) || by intros ? [= <-]). cbn [mbind option_bind]. rewrite imap_imap.
    set (dy := imap _ dx). eapply Hgoal.
    + eapply (bp_cells_run x (c_cell c) h2 p.2 (c_z c) None (Some (dp, zp)) n m gr (qzeros m) dy (GC (Some (dp, zp)))); try done; [apply qzeros_len|unfold dy; by rewrite imap_length].
    + intros i Hi. cbn beta. unfold dy. rewrite el_imap by lia. rewrite Hdx by done. unfold GX, GH. fold m. ring.
  - (* flag 1 *) destruct Hu' as (Hd2 & Hz2 & Hw2).
    rewrite (dy_up_adds d' z' w' mup m None) by done. cbn [mbind option_bind].
    set (dy := imap _ dx). eapply Hgoal.
    + eapply (bp_cells_run x (c_cell c) h2 p.2 (c_z c) (Some (l_up l)) None n m gr (qzeros m) dy (GC None)); try done; [apply qzeros_len|unfold dy; by rewrite imap_length|by intros ? [= <-]].
    + intros i Hi. cbn beta. unfold dy. rewrite el_imap by lia. rewrite Hdx by done. unfold GX, GH. ring.
  - (* flag 2 *) destruct Hplus as [Hd1 Hz1].
    rewrite (dy_plus_adds dp zp (l_u l) m (l_right l)) by done. cbn [mbind option_bind].
    set (dy := imap _ dx). eapply Hgoal.
    + eapply (bp_cells_run x (c_cell c) h2 p.2 (c_z c) None (Some (dp, zp)) n m gr (qzeros m) dy (GC (Some (dp, zp)))); try done; [apply qzeros_len|unfold dy; by rewrite imap_length].
    + intros i Hi. cbn beta. unfold dy. rewrite el_imap by lia. rewrite Hdx by done. unfold GX, GH. fold m. ring.
  - (* flag 0 *) eapply Hgoal.
    + eapply (bp_cells_run x (c_cell c) h2 p.2 (c_z c) None None n m gr (qzeros m) dx (GC None)); try done. apply qzeros_len.
    + intros i Hi. cbn beta. rewrite Hdx by done. unfold GX, GH. ring.
Qed.

Definition inc_t : Type := param -> gate -> nat -> R.
Fixpoint pairs (ls : list lstm) (dWs incs : list inc_t) : R :=
  match ls, dWs, incs with l :: ls, d :: dWs, i :: incs => pair_ (l_in l) (l_out l) d i + pairs ls dWs incs | _, _, _ => 0 end.
Fixpoint adj (ls : list lstm) (plus : list (option (quad * quad))) (st : list ((nat -> R) * (nat -> R))) : R :=
  match ls, plus, st with
  | l :: ls, pl :: plus, s :: st => sumn (l_out l) (fun j => GH l pl j * s.1 j + GC pl j * s.2 j) + adj ls plus st
  | _, _, _ => 0
  end.
Fixpoint added (ls : list lstm) (grs : list grads) (incs : list inc_t) (grs' : list grads) : Prop :=
  match ls, grs, incs, grs' with
  | [], [], [], [] => True
  | l :: ls, g :: grs, i :: incs, g' :: grs' =>
      (forall q k j, (j < psize (l_in l) (l_out l) q)%nat -> el (get_g g' q k) j = el (get_g g q k) j + i q k j) /\ added ls grs incs grs'
  | _, _, _, _ => False
  end.
Definition upof (ls : list lstm) (cs : list cell) (ds : list quad) : option (quad * quad * quad * nat) :=
  match ls, cs, ds with l' :: _, c' :: _, d' :: _ => Some (d', c_z c', l_w l', l_out l') | _, _, _ => None end.

Section time.
  Context (s0 : R).
  Definition scurve (l : lstm) (pc : (R -> list R) * (R -> list R)) (p' : (nat -> R) * (nat -> R)) : Prop :=
    (forall s, length (pc.1 s) = l_out l /\ length (pc.2 s) = l_out l) /\ vcurve s0 (l_out l) pc.1 p'.1 /\ vcurve s0 (l_out l) pc.2 p'.2.
  Definition at_s (s : R) (pcs : list ((R -> list R) * (R -> list R))) : list (list R * list R) := map (fun f => (f.1 s, f.2 s)) pcs.
  Definition ls_at (s : R) (Ls : list (R -> lstm)) : list lstm := map (fun f => f s) Ls.

  Lemma layer_adjoint L l dW x x' h h' c c' : let n := l_in l in let m := l_out l in
    lcurve s0 L l dW -> vcurve s0 n x x' -> vcurve s0 m h h' -> vcurve s0 m c c' ->
    exists hh cc, let step := fun s => layer_step (L s) (x s) (h s) (c s) in
      vcurve s0 m (fun s => (step s).1.1) hh /\ vcurve s0 m (fun s => (step s).1.2) cc /\ vcurve s0 m (fun s => (step s).2) (fun i => el (l_up l) i * hh i) /\
      forall (d z : quad) (X : nat -> R) (plus : option (quad * quad)),
        (forall g i, (i < m)%nat -> el (at_gate z g) i = pre l (x s0) (h s0) g i) ->
        d_rel m d z (step s0).1.2 (c s0) (fun i => X i * el (l_up l) i + GH l plus i) (GC plus) ->
        sumn m (fun j => GH l plus j * hh j + GC plus j * cc j) + sumn m (fun i => X i * (el (l_up l) i * hh i)) =
          pair_ n m dW (ginc d z (x s0) (masked m (l_right l) (h s0)) n m) + sumn n (fun j => flow d z (l_w l) m n j * x' j) +
          sumn m (fun j => GH l (Some (d, z)) j * h' j + GC (Some (d, z)) j * c' j).
  Proof.
    intros n m HL Hx Hh Hc.
    destruct (cell_adjoint s0 L l dW x x' (fun s => masked m (l_right l) (h s)) (fun j => el (l_right l) j * h' j) c c') as (hh & cc & H1 & H2 & H3); try done.
    { intros k Hk. eapply dlim_ext; [intros s; by apply el_masked|]. apply dlim_scal. by apply Hh. }
    destruct HL as (E0 & Hs & Hd).
    assert (Ec : forall s i, (i < m)%nat -> el (layer_step (L s) (x s) (h s) (c s)).1.2 i =
       new_cell (affine (l_w (L s)) (l_u (L s)) (l_b (L s)) n m (x s) (masked m (l_right l) (h s))) (c s) i).
    { intros s i Hi. destruct (Hs s) as (S1 & S2 & S3 & S4). unfold layer_step. cbn [fst snd]. rewrite S1, S2, S4. by rewrite el_map_seq. }
    assert (Eh : forall s i, (i < m)%nat -> el (layer_step (L s) (x s) (h s) (c s)).1.1 i =
       new_hidden (affine (l_w (L s)) (l_u (L s)) (l_b (L s)) n m (x s) (masked m (l_right l) (h s))) (c s) i).
    { intros s i Hi. destruct (Hs s) as (S1 & S2 & S3 & S4). unfold layer_step. cbn [fst snd]. rewrite S1, S2, S4. by rewrite el_map_seq. }
    exists hh, cc. cbv zeta.
    assert (Hhh : vcurve s0 m (fun s => (layer_step (L s) (x s) (h s) (c s)).1.1) hh).
    { intros i Hi. eapply dlim_ext; [intros s; by apply Eh|]. by apply H1. }
    split; [done|]. split.
    { intros i Hi. eapply dlim_ext; [intros s; by apply Ec|]. by apply H2. }
    split.
    { intros i Hi. assert (E : forall s, el (layer_step (L s) (x s) (h s) (c s)).2 i = el (l_up l) i * el (layer_step (L s) (x s) (h s) (c s)).1.1 i).
      { intros s. destruct (Hs s) as (S1 & S2 & S3 & S4). unfold layer_step. cbn [fst snd]. rewrite S2, S3. by rewrite el_masked. }
      eapply dlim_ext; [exact E|]. apply dlim_scal. by apply Hhh. }
    intros d z X plus Hz Hd'.
    rewrite <- sumn_plus. rewrite (sumn_ext m _ (fun i => (X i * el (l_up l) i + GH l plus i) * hh i + GC plus i * cc i)) by (intros; cbn beta; ring).
    pose proof (H3 d z (fun i => X i * el (l_up l) i + GH l plus i) (GC plus)) as H3'. fold n m in H3'. cbn beta in H3'. rewrite H3'.
    - rewrite !Rplus_assoc. do 2 f_equal. rewrite <- sumn_plus. apply sumn_ext. intros j Hj. cbn beta. unfold GH, GC. fold m. ring.
    - intros g i Hi. rewrite Hz by done. unfold pre. fold n m. by rewrite E0.
    - intros i Hi. rewrite <- Ec by done. by apply Hd'.
  Qed.

  Lemma time_run ls : forall n m x prev err grs plus,
    stack_ok n ls m -> length x = n -> Forall2 state_ok ls prev -> length err = m -> Forall2 grads_ok ls grs -> Forall2 plus_ok ls plus ->
    exists cs ds grs' incs, ff_time ls x prev = Some cs /\ bp_time ls x prev cs err grs plus = Some (ds, grs') /\
      Forall2 grads_ok ls grs' /\ Forall2 plus_ok ls (zip_plus ds cs) /\ Forall2 state_ok ls (states cs) /\ (stack_step ls x prev).1 = states cs /\
      added ls grs incs grs' /\ up_ok n (upof ls cs ds) err /\ (ls <> [] -> cs <> [] /\ ds <> []) /\
      forall Ls dWs xc x' pcs p', Forall3 (lcurve s0) Ls ls dWs -> xc s0 = x -> vcurve s0 n xc x' -> prev = at_s s0 pcs -> Forall3 scurve ls pcs p' ->
        exists qcs q' out', (forall s, (stack_step (ls_at s Ls) (xc s) (at_s s pcs)).1 = at_s s qcs) /\ Forall3 scurve ls qcs q' /\
          vcurve s0 m (fun s => (stack_step (ls_at s Ls) (xc s) (at_s s pcs)).2) out' /\
          adj ls plus q' + sumn m (fun i => el err i * out' i) =
          pairs ls dWs incs + adj ls (zip_plus ds cs) p' + sumn n (fun j => GX (upof ls cs ds) n err j * x' j).
  Proof.
    induction ls as [|l ls IH]; intros n m x prev err grs plus Hst Hx Hprev Herr Hgr Hpl.
    - inversion Hprev; subst. inversion Hgr; subst. inversion Hpl; subst. cbn in Hst. exists [], [], [], []. cbn. do 7 (split; [done|]). split; [lia|]. split; [done|].
      intros Ls dWs xc x' pcs p' HL E Hxc Ep Hp. inversion HL; subst. inversion Hp; subst. exists [], [], x'. cbn. split; [done|]. split; [constructor|].
      rewrite Hst in *. split; [done|]. lra.
    - cbn in Hst. destruct Hst as (Hl & Hin & Hst).
      inversion Hprev as [|? p ? prev' Hp Hprev']; subst. inversion Hgr as [|? gr ? grs0 Hg0 Hgr']; subst. inversion Hpl as [|? pl ? plus' Hpl0 Hpl']; subst.
      destruct Hp as [Hp1 Hp2].
      destruct (ff_layer_run l x p.1 p.2) as (ce & Ef & Est & Hzl & Hz); try done.
      pose proof (layer_step_len l x p.1 p.2) as (Len1 & Len2 & Len3).
      assert (E1 : c_hid ce = (layer_step l x p.1 p.2).1.1) by (rewrite <- Est; done).
      assert (E2 : c_cell ce = (layer_step l x p.1 p.2).1.2) by (rewrite <- Est; done).
      assert (E3 : c_up ce = (layer_step l x p.1 p.2).2) by (rewrite <- Est; done).
      destruct (IH (l_out l) (length err) (c_up ce) prev' err grs0 plus') as (cs & ds & grs' & incs & F1 & F2 & F3 & F4 & F4' & F5 & F6 & F7 & F7' & F8); try done.
      { by rewrite E3. }
      destruct (bp_layer_run l x p ce err gr (upof ls cs ds) pl) as (d & gr' & B1 & B2 & B3 & B4 & B5); try done.
      { by rewrite E2. }
      exists (ce :: cs), (d :: ds), (gr' :: grs'), (ginc d (c_z ce) x (masked (l_out l) (l_right l) p.1) (l_in l) (l_out l) :: incs).
      cbn [ff_time]. rewrite Ef. cbn [mbind option_bind]. rewrite F1. cbn [mbind option_bind].
      split; [done|]. cbn [bp_time]. rewrite F2. cbn [mbind option_bind fst snd]. unfold upof in B1. rewrite B1. cbn [mbind option_bind fst snd].
      split; [done|]. split; [by constructor|]. split; [cbn; constructor; done|].
      split; [cbn; constructor; [split; cbn; [rewrite E1|rewrite E2]; done|done]|].
      split; [cbn [stack_step fst states map]; rewrite <- E3, F5, E1, E2; by destruct (layer_step l x p.1 p.2) as [[? ?] ?]|].
      split; [cbn; done|]. split; [cbn; destruct Hl as (? & _); done|]. split; [done|].
      intros Ls dWs xc x' pcs p' HL E Hxc Ep Hp. inversion HL as [|L ? dW Ls' ? dWs' HL0 HL1]; subst. inversion Hp as [|? pc p0' ? pcs' ps' Hpc Hpcs]; subst.
      cbn [at_s map] in Ep. injection Ep as Ep0 Ep1. destruct Hpc as (Hlen & Hpc1 & Hpc2).
      destruct (layer_adjoint L l dW xc x' pc.1 p0'.1 pc.2 p0'.2) as (hh & cc & C1 & C2 & C3 & C4); try done.
      cbv zeta in C1, C2, C3, C4.
      destruct (F8 Ls' dWs' (fun s => (layer_step (L s) (xc s) (pc.1 s) (pc.2 s)).2) (fun i => el (l_up l) i * hh i) pcs' ps') as (qcs & q' & out' & G1 & G2 & G3 & G4); try done.
      { rewrite E3. destruct HL0 as (-> & _). by rewrite Ep0. }
      exists ((fun s => (layer_step (L s) (xc s) (pc.1 s) (pc.2 s)).1.1, fun s => (layer_step (L s) (xc s) (pc.1 s) (pc.2 s)).1.2) :: qcs), ((hh, cc) :: q'), out'.
      split. { intros s. cbn [ls_at at_s map stack_step fst snd]. f_equal. apply G1. }
      split. { constructor; [|done]. split; [|split; [exact C1|exact C2]]. intros s. pose proof (layer_step_len (L s) (xc s) (pc.1 s) (pc.2 s)) as (? & ? & ?). cbn.
        destruct HL0 as (_ & Hs & _). destruct (Hs s) as (_ & <- & _). done. }
      split; [exact G3|].
      cbn [adj pairs zip_plus upof GX fst snd].
      pose proof (C4 d (c_z ce) (GX (upof ls cs ds) (l_out l) err) pl) as C5. rewrite Ep0 in Hz, B4, E2. cbn [fst snd] in Hz, B4, E2.
      destruct HL0 as (HL00 & _). rewrite HL00, <- E2 in C5. specialize (C5 Hz B4). rewrite Ep0. cbn [fst].
      assert (Hgx : sumn (l_out l) (fun i => GX (upof ls cs ds) (l_out l) err i * (el (l_up l) i * hh i)) = sumn (l_out l) (fun j => GX (upof ls cs ds) (l_out l) err j * (el (l_up l) j * hh j))) by done.
      cbn [GX upof] in *. lra.
  Qed.

  Definition inc_add (a b : inc_t) : inc_t := fun p g k => a p g k + b p g k.
  Lemma pair_add n m dW a b : pair_ n m dW (inc_add a b) = pair_ n m dW a + pair_ n m dW b.
  Proof.
    unfold pair_, sump, sumg, inc_add.
    assert (H : forall q g, sumn (psize n m q) (fun k => dW q g k * (a q g k + b q g k)) = sumn (psize n m q) (fun k => dW q g k * a q g k) + sumn (psize n m q) (fun k => dW q g k * b q g k)).
    { intros. rewrite <- sumn_plus. apply sumn_ext. intros. ring. }
    rewrite !H. ring.
  Qed.
  Lemma added_length ls : forall grs incs grs', added ls grs incs grs' -> length incs = length ls.
  Proof. induction ls as [|l ls IH]; intros [|] [|] [|]; cbn; try done. intros [_ H]. f_equal. by eapply IH. Qed.
  Lemma pairs_add ls : forall dWs a b, length a = length ls -> length b = length ls -> pairs ls dWs (zip_with inc_add a b) = pairs ls dWs a + pairs ls dWs b.
  Proof.
    induction ls as [|l ls IH]; intros [|dW dWs] [|a ass] [|b bs]; cbn; try (intros; done || lra). intros [= Ha] [= Hb]. rewrite IH by done. rewrite pair_add. ring.
  Qed.
  Lemma added_trans ls : forall g1 a g2 b g3, added ls g1 a g2 -> added ls g2 b g3 -> added ls g1 (zip_with inc_add a b) g3.
  Proof.
    induction ls as [|l ls IH]; intros [|x1 g1] [|y1 a] [|x2 g2] [|y2 b] [|x3 g3]; cbn; try done. intros [H1 H1'] [H2 H2']. split; [|by eapply IH].
    intros q k j Hj. rewrite H2, H1 by done. unfold inc_add. ring.
  Qed.
  Lemma adj_none ls : forall q, adj ls (map (fun _ => None) ls) q = 0.
  Proof. induction ls as [|l ls IH]; intros [|q qs]; cbn; try done. rewrite IH. rewrite sumn_0; [lra|]. intros. cbn. lra. Qed.

  Lemma window_run ls inputs : forall n m prev errs grs,
    inputs <> [] -> length errs = length inputs ->
    stack_ok n ls m -> Forall (fun x => length x = n) inputs -> Forall2 state_ok ls prev -> Forall (fun e => length e = m) errs -> Forall2 grads_ok ls grs ->
    exists cs css ds grs' incs, ff_rmodel_lstm ls prev inputs = Some (cs :: css) /\ bp_window ls prev inputs (cs :: css) errs grs = Some (ds, grs') /\ Forall2 grads_ok ls grs' /\ Forall2 plus_ok ls (zip_plus ds cs) /\ added ls grs incs grs' /\ forall Ls dWs pcs p', Forall3 (lcurve s0) Ls ls dWs -> prev = at_s s0 pcs -> Forall3 scurve ls pcs p' ->
        derivable_pt_lim (fun s => loss m (ls_at s Ls) (at_s s pcs) inputs errs) s0 (pairs ls dWs incs + adj ls (zip_plus ds cs) p').
  Proof.
    induction inputs as [|x inputs IH]; intros n m prev errs grs Hne Hlen Hst Hin Hprev Herr Hgr; [done|].
    destruct errs as [|err errs]; [done|]. injection Hlen as Hlen. inversion Hin as [|? ? Hx Hin']; subst. inversion Herr as [|? ? He Herr']; subst.
    assert (Hdx : forall (x : list R), vcurve s0 (length x) (fun _ => x) (fun _ => 0)) by (intros ? k Hk; apply dlim_const).
    destruct inputs as [|x2 inputs].
    - destruct errs as [|]; [|done].
      destruct (time_run ls (length x) (length err) x prev err grs (map (fun _ => None) ls)) as (cs & ds & grs' & incs & F1 & F2 & F3 & F4 & F4' & F5 & F6 & F7 & F7' & F8); try done.
      { clear. induction ls; cbn; constructor; done. }
      exists cs, [], ds, grs', incs. cbn [ff_rmodel_lstm]. rewrite F1. cbn [mbind option_bind]. split; [done|]. split; [exact F2|]. do 3 (split; [done|]).
      intros Ls dWs pcs p' HL Ep Hp. destruct (F8 Ls dWs (fun _ => x) (fun _ => 0) pcs p') as (qcs & q' & out' & G1 & G2 & G3 & G4); try done.
      rewrite adj_none in G4. rewrite (sumn_0 (length x)) in G4 by (intros; ring).
      cbn [loss]. eapply dlim_val; cycle 1.
      + apply dlim_plus; [|apply dlim_const]. apply (dlim_sumn (length err) (fun i s => el err i * el (stack_step (ls_at s Ls) x (at_s s pcs)).2 i)).
        intros i Hi. apply dlim_scal. by apply G3.
      + cbn beta. lra.
    - destruct (time_run ls (length x) (length err) x prev err grs (map (fun _ => None) ls)) as (cs & _ & _ & _ & F1 & _ & _ & _ & Fs & Fst & _); try done.
      { clear. induction ls; cbn; constructor; done. }
      destruct (IH (length x) (length err) (states cs) errs grs) as (cs2 & css & ds2 & grs2 & incs2 & I1 & I2 & I3 & I4 & I5 & I6); try done.
      destruct (time_run ls (length x) (length err) x prev err grs2 (zip_plus ds2 cs2)) as (cs' & ds & grs' & incs & F1' & F2 & F3 & F4 & F4' & F5 & F6 & F7 & F7' & F8); try done.
      rewrite F1 in F1'. injection F1' as <-.
      exists cs, (cs2 :: css), ds, grs', (zip_with inc_add incs2 incs).
      split; [cbn [ff_rmodel_lstm]; rewrite F1; cbn [mbind option_bind]; cbn [ff_rmodel_lstm] in I1; rewrite I1; done|].
      split.
      { change (bp_window ls prev (x :: x2 :: inputs) (cs :: cs2 :: css) (err :: errs) grs) with
          (r ← bp_window ls (states cs) (x2 :: inputs) (cs2 :: css) errs grs; bp_time ls x prev cs err r.2 (zip_plus r.1 cs2)).
        rewrite I2. cbn [mbind option_bind fst snd]. exact F2. }
      do 2 (split; [done|]). split; [by eapply added_trans|].
      intros Ls dWs pcs p' HL Ep Hp. destruct (F8 Ls dWs (fun _ => x) (fun _ => 0) pcs p') as (qcs & q' & out' & G1 & G2 & G3 & G4); try done.
      rewrite (sumn_0 (length x)) in G4 by (intros; ring). rewrite pairs_add by (by eapply added_length).
      assert (Els : ls_at s0 Ls = ls). { clear -HL. induction HL as [|L l dW Ls' ls' dWs' H0 H1 IH]; cbn; [done|]. destruct H0 as (-> & _). by f_equal. }
      assert (Eloss : forall s, loss (length err) (ls_at s Ls) (at_s s pcs) (x :: x2 :: inputs) (err :: errs) =
         sumn (length err) (fun i => el err i * el (stack_step (ls_at s Ls) x (at_s s pcs)).2 i) + loss (length err) (ls_at s Ls) (at_s s qcs) (x2 :: inputs) errs).
      { intros s. rewrite <- G1. done. }
      eapply dlim_ext; [exact Eloss|]. eapply dlim_val; cycle 1.
      + apply dlim_plus.
        * apply (dlim_sumn (length err) (fun i s => el err i * el (stack_step (ls_at s Ls) x (at_s s pcs)).2 i)). intros i Hi. apply dlim_scal. by apply G3.
        * apply (I6 Ls dWs qcs q' HL); [|done]. rewrite <- G1. rewrite Els, <- Ep. by rewrite Fst.
      + cbn beta. lra.
  Qed.
End time.
