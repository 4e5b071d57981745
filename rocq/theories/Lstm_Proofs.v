(** What lstm_ff and lstm_bp compute, entry by entry. *)
From Verif Require Import NumLib3 Act_Model Act_Props Lstm_Model Lstm_Spec.
Open Scope nat_scope.

Definition QAdds (n : nat) (f : quad -> option quad) (D : gate -> nat -> R) : Prop :=
  forall z, qlen n z -> exists z', f z = Some z' /\ qlen n z' /\ forall g k, k < n -> el (at_gate z' g) k = (el (at_gate z g) k + D g k)%R.
Lemma QAdds_ext n f D D' : QAdds n f D -> (forall g k, k < n -> D g k = D' g k) -> QAdds n f D'.
Proof. intros H E z Hz. destruct (H z Hz) as (z' & ? & ? & Hv). exists z'. do 2 (split; [done|]). intros g k Hk. rewrite <- E by done. by apply Hv. Qed.
Lemma QAdds_body n f f' D : (forall z, qlen n z -> f z = f' z) -> QAdds n f' D -> QAdds n f D.
Proof. intros E H z Hz. rewrite (E z Hz). by apply H. Qed.
Lemma QAdds_seq n f1 f2 D1 D2 : QAdds n f1 D1 -> QAdds n f2 D2 -> QAdds n (fun z => z1 ← f1 z; f2 z1) (fun g k => D1 g k + D2 g k)%R.
Proof.
  intros H1 H2 z Hz. destruct (H1 z Hz) as (z1 & -> & Hz1 & Hv1). cbn [mbind option_bind].
  destruct (H2 z1 Hz1) as (z2 & -> & Hz2 & Hv2). exists z2. do 2 (split; [done|]). intros g k Hk. rewrite Hv2, Hv1 by done. lra.
Qed.
Lemma QAdds_loop n cnt body D : (forall i, i < cnt -> QAdds n (body i) (D i)) -> QAdds n (for_loop cnt 0 body) (fun g k => sumn cnt (fun i => D i g k)).
Proof.
  intros H z Hz.
  destruct (for_loop_inv (fun i z' => qlen n z' /\ forall g k, k < n -> el (at_gate z' g) k = (el (at_gate z g) k + sumn i (fun i => D i g k))%R) body cnt 0 z) as (z' & E & Hz' & Hv).
  - split; [done|]. intros. cbn. lra.
  - intros i s Hi [Hs Hv]. destruct (H i ltac:(lia) s Hs) as (s' & -> & Hs' & Hv'). exists s'. split; [done|]. split; [done|].
    intros g k Hk. rewrite Hv', Hv by done. cbn [sumn]. lra.
  - exists z'. done.
Qed.
Lemma addat_el l i v : i < length l -> exists l', addat l i v = Some l' /\ length l' = length l /\ forall k, el l' k = (el l k + if decide (k = i) then v else 0)%R.
Proof.
  intros Hi. unfold addat. rewrite rd_el by done. cbn [mbind option_bind]. rewrite wr_Some by done. eexists. split; [done|]. split; [apply insert_length|].
  intros k. rewrite el_upd by done. destruct (decide (k = i)) as [->|]; lra.
Qed.
Ltac addstep := match goal with |- context [addat ?l ?i ?v] =>
  let l' := fresh "l" in let E := fresh "E" in let Hl := fresh "Hl" in let Hv := fresh "Hv" in
  destruct (addat_el l i v) as (l' & E & Hl & Hv); [lia|]; rewrite E; cbn [mbind option_bind]; clear E end.
Lemma z_mac_adds n w kw x i : i < n -> (forall g, kw < length (at_gate w g)) ->
  QAdds n (z_mac w kw x i) (fun g k => if decide (k = i) then (el (at_gate w g) kw * x)%R else 0%R).
Proof.
  intros Hi Hw z Hz. unfold z_mac. pose proof (Hz Forget) as H1. pose proof (Hz Input) as H2. pose proof (Hz Output) as H3. pose proof (Hz Candidate) as H4.
  pose proof (Hw Forget) as W1. pose proof (Hw Input) as W2. pose proof (Hw Output) as W3. pose proof (Hw Candidate) as W4. cbn [at_gate] in *.
  rewrite (rd_el (q_f w)) by done. cbn [mbind option_bind]. addstep.
  rewrite (rd_el (q_i w)) by done. cbn [mbind option_bind]. addstep.
  rewrite (rd_el (q_o w)) by done. cbn [mbind option_bind]. addstep.
  rewrite (rd_el (q_c w)) by done. cbn [mbind option_bind]. addstep.
  eexists. split; [reflexivity|]. split; [intros []; cbn; lia|]. intros [] k Hk; cbn [at_gate q_f q_i q_o q_c]; auto.
Qed.
Lemma d_mac_adds n i (D : gate -> R) x : i < n ->
  QAdds n (d_mac i (D Forget) (D Input) (D Output) (D Candidate) x) (fun g k => if decide (k = i) then (D g * x)%R else 0%R).
Proof.
  intros Hi z Hz. unfold d_mac. pose proof (Hz Forget) as H1. pose proof (Hz Input) as H2. pose proof (Hz Output) as H3. pose proof (Hz Candidate) as H4. cbn [at_gate] in *.
  do 4 addstep. eexists. split; [reflexivity|]. split; [intros []; cbn; lia|]. intros [] k Hk; cbn [at_gate q_f q_i q_o q_c]; auto.
Qed.

Lemma sigmoid_logi x : sigmoid x = logi x.
Proof. unfold sigmoid, logi. cbv zeta. unfold Rdiv. ring. Qed.

(** lstm_ff *)
Lemma lstm_ff_run x h c cl hd w u b z n m :
  length x = n -> length h = m -> length c = m -> length cl = m -> length hd = m ->
  qlen (m * n) w -> qlen (m * m) u -> qlen m b -> qlen m z ->
  exists z' cl' hd', lstm_ff x h c cl hd w u b z n m = Some (z', cl', hd') /\ qlen m z' /\ length cl' = m /\ length hd' = m /\
    let a := fun g i => (el (at_gate z g) i + affine w u b n m x h g i)%R in
    (forall g i, i < m -> el (at_gate z' g) i = a g i) /\
    (forall i, i < m -> el cl' i = new_cell a c i) /\ (forall i, i < m -> el hd' i = new_hidden a c i).
Proof.
  intros Hx Hh Hc Hcl Hhd Hw Hu Hb Hz. unfold lstm_ff.
  set (a := fun g i => (el (at_gate z g) i + affine w u b n m x h g i)%R).
  destruct (for_loop_inv (fun i (st : quad * list R * list R) => qlen m st.1.1 /\ length st.1.2 = m /\ length st.2 = m /\
      (forall g k, k < m -> el (at_gate st.1.1 g) k = if decide (k < i) then a g k else el (at_gate z g) k) /\
      (forall k, k < i -> el st.1.2 k = new_cell a c k) /\ (forall k, k < i -> el st.2 k = new_hidden a c k))
    (fun i (st : quad * list R * list R) =>
    z ← for_loop n 0 (fun j z => xj ← rd x j; z_mac w (i * n + j) xj i z) st.1.1;
    z ← for_loop m 0 (fun j z => hj ← rd h j; z_mac u (i * m + j) hj i z) z;
    z ← z_mac b i 1%R i z;
    zf ← rd (q_f z) i; zi ← rd (q_i z) i; zo ← rd (q_o z) i; zc ← rd (q_c z) i; ci ← rd c i;
    let cs := (tanhh zc * sigmoid zi + ci * sigmoid zf)%R in
    cell ← wr st.1.2 i cs;
    hid ← wr st.2 i (sigmoid zo * tanhh cs)%R;
    Some (z, cell, hid)) m 0 (z, cl, hd)) as ([[z' cl'] hd'] & E & H1 & H2 & H3 & H4 & H5 & H6); cbn [fst snd] in *.
  - split; [done|]. split; [done|]. split; [done|]. split; [intros; rewrite decide_False by lia; done|]. split; intros; lia.
  - intros i [[zi cli] hdi] Hi (H1 & H2 & H3 & H4 & H5 & H6). cbn [fst snd] in *.
    destruct (QAdds_loop m n (fun j z => xj ← rd x j; z_mac w (i * n + j) xj i z) (fun j g k => if decide (k = i) then (el (at_gate w g) (i * n + j) * el x j)%R else 0%R)) with (z := zi)
      as (z1 & -> & Hz1 & Hv1); [|done|].
    { intros j Hj. eapply QAdds_body; [intros; rewrite rd_el by lia; reflexivity|]. apply z_mac_adds; [lia|]. intros g. rewrite Hw. nia. }
    cbn [mbind option_bind].
    destruct (QAdds_loop m m (fun j z => hj ← rd h j; z_mac u (i * m + j) hj i z) (fun j g k => if decide (k = i) then (el (at_gate u g) (i * m + j) * el h j)%R else 0%R)) with (z := z1)
      as (z2 & -> & Hz2 & Hv2); [|done|].
    { intros j Hj. eapply QAdds_body; [intros; rewrite rd_el by lia; reflexivity|]. apply z_mac_adds; [lia|]. intros g. rewrite Hu. nia. }
    cbn [mbind option_bind].
    destruct (z_mac_adds m b i 1%R i ltac:(lia)) with (z := z2) as (z3 & -> & Hz3 & Hv3); [intros g; rewrite Hb; lia|done|]. cbn [mbind option_bind].
    assert (Hval : forall g k, k < m -> el (at_gate z3 g) k = if decide (k < S i) then a g k else el (at_gate z g) k).
    { intros g k Hk. rewrite Hv3, Hv2, Hv1, H4 by done. destruct (decide (k = i)) as [->|Hne].
      - rewrite decide_False by lia. rewrite decide_True by lia. unfold a, affine. lra.
      - rewrite !sumn_0 by done. destruct (decide (k < i)), (decide (k < S i)); lra || lia. }
    assert (Hr : forall g, rd (at_gate z3 g) i = Some (a g i)).
    { intros g. rewrite rd_el by (rewrite Hz3; lia). rewrite Hval by lia. by rewrite decide_True by lia. }
    pose proof (Hr Forget) as R1. pose proof (Hr Input) as R2. pose proof (Hr Output) as R3. pose proof (Hr Candidate) as R4. cbn [at_gate] in R1, R2, R3, R4.
    rewrite R1, R2, R3, R4. cbn [mbind option_bind]. rewrite rd_el by lia. cbn [mbind option_bind]. rewrite wr_Some by lia. cbn [mbind option_bind].
    rewrite wr_Some by lia. cbn [mbind option_bind]. eexists. split; [reflexivity|]. cbn [fst snd].
    assert (Hcell : (tanhh (a Candidate i) * sigmoid (a Input i) + el c i * sigmoid (a Forget i))%R = new_cell a c i).
    { unfold new_cell. rewrite !sigmoid_logi, C22_tanhh_is_tanh. ring. }
    rewrite !insert_length. split; [done|]. split; [done|]. split; [done|]. split; [done|]. split.
    + intros k Hk. rewrite el_upd by lia. destruct (decide (k = i)) as [->|]; [done|]. apply H5. lia.
    + intros k Hk. rewrite el_upd by lia. destruct (decide (k = i)) as [->|]; [|apply H6; lia]. rewrite Hcell. unfold new_hidden. by rewrite sigmoid_logi, C22_tanhh_is_tanh.
  - exists z', cl', hd'. split; [exact E|]. split; [done|]. split; [done|]. split; [done|]. split; [|split; intros; [apply H5|apply H6]; lia].
    intros g i Hi. rewrite H4 by lia. by rewrite decide_True by lia.
Qed.

(** lstm_bp: the derivative of the loss with respect to the pre-activation of gate g of cell i *)
Definition delta (d z : quad) (g : gate) (i : nat) : R :=
  (match g with
  | Candidate => el (q_c d) i * sigmoid (el (q_i z) i) * derivative_tanhh (el (q_c z) i)
  | _ => el (at_gate d g) i * derivative_sigmoid (el (at_gate z g) i)
  end)%R.
Definition sumg (f : gate -> R) : R := (f Forget + f Input + f Output + f Candidate)%R.
Lemma sumg_ext f g : (forall k, f k = g k) -> sumg f = sumg g.
Proof. intros H. unfold sumg. by rewrite !H. Qed.
Lemma sumg_plus f g : (sumg f + sumg g = sumg (fun k => f k + g k))%R.
Proof. unfold sumg. lra. Qed.
Lemma sumg_scal c f : (c * sumg f = sumg (fun k => c * f k))%R.
Proof. unfold sumg. lra. Qed.
Lemma sumg_sumn n f : sumn n (fun i => sumg (fun g => f g i)) = sumg (fun g => sumn n (f g)).
Proof. unfold sumg. rewrite !sumn_plus. done. Qed.

Lemma dy_mac_adds m k0 d z w i kw mk n :
  k0 < n -> qlen m d -> qlen m z -> i < m -> (forall g, kw < length (at_gate w g)) ->
  Adds n (dy_mac d z w i kw k0 mk) (fun k => if decide (k = k0) then sumg (fun g => delta d z g i * el (at_gate w g) kw * mk)%R else 0%R).
Proof.
  intros Hk0 Hd Hz Hi Hw l Hl. unfold dy_mac.
  pose proof (Hd Forget) as D1. pose proof (Hd Input) as D2. pose proof (Hd Output) as D3. pose proof (Hd Candidate) as D4.
  pose proof (Hz Forget) as Z1. pose proof (Hz Input) as Z2. pose proof (Hz Output) as Z3. pose proof (Hz Candidate) as Z4.
  pose proof (Hw Forget) as W1. pose proof (Hw Input) as W2. pose proof (Hw Output) as W3. pose proof (Hw Candidate) as W4. cbn [at_gate] in *.
  rewrite (rd_el (q_f d)), (rd_el (q_f z)), (rd_el (q_f w)), (rd_el (q_i d)), (rd_el (q_i z)), (rd_el (q_i w)), (rd_el (q_o d)), (rd_el (q_o z)), (rd_el (q_o w)),
    (rd_el (q_c d)), (rd_el (q_c z)), (rd_el (q_c w)) by lia. cbn [mbind option_bind].
  repeat (rewrite (Adds_at n k0 _ Hk0) by (by rewrite ?imap_length); cbn [mbind option_bind]). rewrite !imap_imap. f_equal.
  apply imap_ext_lt. intros k x Hk _. unfold sumg, delta. cbn [at_gate]. destruct (decide (k = k0)); lra.
Qed.
(** the error that flows back through the weights [w] to entry j *)
Definition flow (d z w : quad) (mup m : nat) (j : nat) : R := sumn mup (fun i => sumg (fun g => delta d z g i * el (at_gate w g) (i * m + j)%nat)%R).
Lemma dy_loop_adds d z w mup m mask (f : nat -> option R) :
  qlen mup d -> qlen mup z -> qlen (mup * m) w -> (forall j, j < m -> f j = Some (mask j)) ->
  Adds m (for_loop mup 0 (fun i => for_loop m 0 (fun j dy => mk ← f j; dy_mac d z w i (i * m + j) j mk dy))) (fun j => flow d z w mup m j * mask j)%R.
Proof.
  intros Hd Hz Hw Hf. eapply Adds_ext.
  - apply (Adds_loop2 m mup m 0 0 (fun i j dy => mk ← f j; dy_mac d z w i (i * m + j) j mk dy)
      (fun i j k => if decide (k = j) then sumg (fun g => delta d z g i * el (at_gate w g) (i * m + j) * mask j)%R else 0%R)).
    intros i j Hi Hj. eapply Adds_body; [intros l Hl; cbn [plus]; rewrite (Hf j Hj); cbn [mbind option_bind]; reflexivity|].
    cbn [plus]. apply (dy_mac_adds mup); try done. intros g. rewrite Hw. nia.
  - intros j Hj. cbn beta. unfold sum2, flow. rewrite <- sumn_scal_r. apply sumn_ext. intros i Hi. cbn beta.
    rewrite (sumn_single m j); [|done|]. 2:{ intros k _ Hk. cbn beta. by rewrite decide_False by congruence. }
    rewrite decide_True by done. unfold sumg. lra.
Qed.
Lemma dy_plus_adds d z u m mask : qlen m d -> qlen m z -> qlen (m * m) u -> length mask = m -> Adds m (dy_plus d z u m mask) (fun j => flow d z u m m j * el mask j)%R.
Proof. intros. apply (dy_loop_adds d z u m m (el mask) (fun j => rd mask j)); try done. intros. apply rd_el. lia. Qed.
Lemma dy_up_adds d z w mup m mask : qlen mup d -> qlen mup z -> qlen (mup * m) w -> (forall l, mask = Some l -> length l = m) ->
  Adds m (dy_up d z w mup m mask) (fun j => flow d z w mup m j * match mask with Some l => el l j | None => 1 end)%R.
Proof.
  intros Hd Hz Hw Hm. apply (dy_loop_adds d z w mup m _ (fun j => match mask with Some m => rd m j | None => Some 1%R end)); try done.
  intros j Hj. destruct mask as [l|]; [|done]. apply rd_el. rewrite (Hm l) by done. done.
Qed.

(** the loop over the cells: A is the error on the hidden state, N the error on the cell state from the next time *)
Lemma bp_cells_run x c_t h cm z mask plus n m gr d0 dy (N : nat -> R) :
  length x = n -> length c_t = m -> length h = m -> length cm = m -> qlen m z -> qlen m d0 -> length dy = m ->
  qlen (m * n) (g_w gr) -> qlen (m * m) (g_u gr) -> qlen m (g_b gr) ->
  (forall l, mask = Some l -> length l = m) ->
  (forall i, i < m -> match plus with
         | Some (d_plus, z_plus) => dcp ← rd (q_c d_plus) i; zfp ← rd (q_f z_plus) i; Some (dcp * sigmoid zfp)%R
         | None => Some 0%R
         end = Some (N i)) ->
  let A := fun i => match mask with Some l => (el dy i * el l i)%R | None => el dy i end in
  exists gr' d dy', for_loop m 0 (bp_cell x c_t h cm z mask plus n m) (BpState gr d0 dy) = Some (BpState gr' d dy') /\
    qlen (m * n) (g_w gr') /\ qlen (m * m) (g_u gr') /\ qlen m (g_b gr') /\ qlen m d /\
    (forall i, i < m -> el (q_o d) i = (A i * tanhh (el c_t i))%R /\
       el (q_c d) i = (A i * sigmoid (el (q_o z) i) * derivative_tanhh (el c_t i) + N i)%R /\
       el (q_i d) i = (el (q_c d) i * tanhh (el (q_c z) i))%R /\ el (q_f d) i = (el (q_c d) i * el cm i)%R) /\
    (forall g k, k < m * n -> el (at_gate (g_w gr') g) k = (el (at_gate (g_w gr) g) k + delta d z g (k / n) * el x (k mod n))%R) /\
    (forall g k, k < m * m -> el (at_gate (g_u gr') g) k = (el (at_gate (g_u gr) g) k + delta d z g (k / m) * el h (k mod m))%R) /\
    (forall g k, k < m -> el (at_gate (g_b gr') g) k = (el (at_gate (g_b gr) g) k + delta d z g k)%R).
Proof.
  intros Hx Hct Hh Hcm Hz Hd0 Hdy Hgw Hgu Hgb Hmask HN A.
  set (Dc := fun i => (A i * sigmoid (el (q_o z) i) * derivative_tanhh (el c_t i) + N i)%R).
  set (dv := fun g i => match g with Output => (A i * tanhh (el c_t i))%R | Candidate => Dc i | Input => (Dc i * tanhh (el (q_c z) i))%R | Forget => (Dc i * el cm i)%R end).
  set (dl := fun g i => (match g with
    | Candidate => dv Candidate i * sigmoid (el (q_i z) i) * derivative_tanhh (el (q_c z) i)
    | _ => dv g i * derivative_sigmoid (el (at_gate z g) i) end)%R).
  destruct (for_loop_inv (fun i st => qlen (m * n) (g_w (s_grads st)) /\ qlen (m * m) (g_u (s_grads st)) /\ qlen m (g_b (s_grads st)) /\ qlen m (s_d st) /\ length (s_dy st) = m /\
      (forall k, i <= k -> el (s_dy st) k = el dy k) /\
      (forall g k, k < i -> el (at_gate (s_d st) g) k = dv g k) /\
      (forall g k, k < m * n -> el (at_gate (g_w (s_grads st)) g) k = (el (at_gate (g_w gr) g) k + if decide (k / n < i)%nat then dl g (k / n)%nat * el x (k mod n)%nat else 0)%R) /\
      (forall g k, k < m * m -> el (at_gate (g_u (s_grads st)) g) k = (el (at_gate (g_u gr) g) k + if decide (k / m < i)%nat then dl g (k / m)%nat * el h (k mod m)%nat else 0)%R) /\
      (forall g k, k < m -> el (at_gate (g_b (s_grads st)) g) k = (el (at_gate (g_b gr) g) k + if decide (k < i)%nat then dl g k else 0)%R))
    (bp_cell x c_t h cm z mask plus n m) m 0 (BpState gr d0 dy)) as ([gr' d dy'] & E & H1 & H2 & H3 & H4 & H5 & H6 & H7 & H8 & H9 & H10); cbn [s_grads s_d s_dy] in *.
  - do 5 (split; [done|]). split; [done|]. split; [intros; lia|]. split; [|split]; intros; rewrite decide_False by lia; lra.
  - intros i [gri di dyi] Hi (H1 & H2 & H3 & H4 & H5 & H6 & H7 & H8 & H9 & H10). cbn [s_grads s_d s_dy] in *. unfold bp_cell. cbn [s_grads s_d s_dy].
    assert (Hdyi : exists dyi', match mask with Some m => e ← rd dyi i; mk ← rd m i; wr dyi i (e * mk)%R | None => Some dyi end = Some dyi' /\ length dyi' = m /\
      el dyi' i = A i /\ forall k, i < k -> el dyi' k = el dy k).
    { destruct mask as [l|].
      - rewrite (rd_el dyi) by lia. cbn [mbind option_bind]. rewrite (rd_el l) by (rewrite (Hmask l) by done; lia). cbn [mbind option_bind]. rewrite wr_Some by lia.
        eexists. split; [reflexivity|]. split; [by rewrite insert_length|]. split; [rewrite el_upd_eq by lia; unfold A; rewrite H6 by lia; done|].
        intros k Hk. rewrite el_upd_ne by lia. apply H6. lia.
      - eexists. split; [reflexivity|]. split; [done|]. split; [unfold A; apply H6; lia|]. intros. apply H6. lia. }
    destruct Hdyi as (dyi' & -> & Hl' & HA & Hrest). cbn [mbind option_bind].
    rewrite (rd_el dyi'), (rd_el c_t) by lia. cbn [mbind option_bind].
    pose proof (Hz Forget) as Z1. pose proof (Hz Input) as Z2. pose proof (Hz Output) as Z3. pose proof (Hz Candidate) as Z4. cbn [at_gate] in Z1, Z2, Z3, Z4.
    pose proof (H4 Forget) as D1. pose proof (H4 Input) as D2. pose proof (H4 Output) as D3. pose proof (H4 Candidate) as D4. cbn [at_gate] in D1, D2, D3, D4.
    rewrite (rd_el (q_f z)), (rd_el (q_i z)), (rd_el (q_o z)), (rd_el (q_c z)), (rd_el cm) by lia. cbn [mbind option_bind]. rewrite HN by lia. cbn [mbind option_bind].
    rewrite !wr_Some by lia. cbn [mbind option_bind]. rewrite HA.
    change (derivative_sigmoid_given_the_sigmoid (sigmoid (el (q_i z) i))) with (derivative_sigmoid (el (q_i z) i)).
    change (A i * sigmoid (el (q_o z) i) * derivative_tanhh (el c_t i) + N i)%R with (Dc i).
    cbv zeta.
    change (Dc i * el cm i * derivative_sigmoid (el (q_f z) i))%R with (dl Forget i).
    change (Dc i * tanhh (el (q_c z) i) * derivative_sigmoid (el (q_i z) i))%R with (dl Input i).
    change (A i * tanhh (el c_t i) * derivative_sigmoid (el (q_o z) i))%R with (dl Output i).
    change (Dc i * sigmoid (el (q_i z) i) * derivative_tanhh (el (q_c z) i))%R with (dl Candidate i).
    destruct (QAdds_loop (m * n) n (fun j dw => x0 ← rd x j; d_mac (i * n + j) (dl Forget i) (dl Input i) (dl Output i) (dl Candidate i) x0 dw)
      (fun j g k => if decide (k = i * n + j) then (dl g i * el x j)%R else 0%R)) with (z := g_w gri) as (w' & Ew & Hw' & Hvw); [|done|].
    { intros j Hj. eapply QAdds_body; [intros; rewrite rd_el by lia; reflexivity|]. cbn [mbind option_bind]. apply (d_mac_adds _ _ (fun g => dl g i)). nia. }
    rewrite Ew. cbn [mbind option_bind].
    destruct (QAdds_loop (m * m) m (fun j du => h0 ← rd h j; d_mac (i * m + j) (dl Forget i) (dl Input i) (dl Output i) (dl Candidate i) h0 du)
      (fun j g k => if decide (k = i * m + j) then (dl g i * el h j)%R else 0%R)) with (z := g_u gri) as (u' & Eu & Hu' & Hvu); [|done|].
    { intros j Hj. eapply QAdds_body; [intros; rewrite rd_el by lia; reflexivity|]. cbn [mbind option_bind]. apply (d_mac_adds _ _ (fun g => dl g i)). nia. }
    rewrite Eu. cbn [mbind option_bind].
    destruct (d_mac_adds m i (fun g => dl g i) 1%R ltac:(lia) (g_b gri)) as (b' & Eb & Hb' & Hvb); [done|].
    cbn beta in Eb. rewrite Eb. cbn [mbind option_bind]. eexists. split; [reflexivity|]. cbn [s_grads s_d s_dy g_w g_u g_b].
    do 3 (split; [done|]). split; [intros []; cbn [at_gate q_f q_i q_o q_c]; by rewrite insert_length|]. split; [done|].
    split; [intros; apply Hrest; lia|].
    split. { intros g k Hk. destruct (decide (k = i)) as [->|Hne].
      - destruct g; cbn [at_gate q_f q_i q_o q_c]; rewrite el_upd_eq by lia; done.
      - destruct g; cbn [at_gate q_f q_i q_o q_c]; rewrite el_upd_ne by lia; [apply (H7 Forget)|apply (H7 Input)|apply (H7 Output)|apply (H7 Candidate)]; lia. }
    assert (Hflat : forall N0 (v : list R) (g : gate) k, k < m * N0 -> sumn N0 (fun j => if decide (k = i * N0 + j) then (dl g i * el v j)%R else 0%R) =
       if decide (k / N0 = i) then (dl g (k / N0)%nat * el v (k mod N0)%nat)%R else 0%R).
    { intros N0 v g k Hk. assert (N0 <> 0) by nia. pose proof (Nat.div_mod k N0 ltac:(done)) as Hdm. pose proof (Nat.mod_upper_bound k N0 ltac:(done)).
      destruct (decide (k / N0 = i)) as [Heq|Hne].
      - rewrite (sumn_single N0 (k mod N0)); [|lia|].
        + rewrite decide_True by (rewrite <- Heq; lia). by rewrite Heq.
        + intros j Hj Hne. rewrite decide_False; [done|]. rewrite <- Heq. lia.
      - apply sumn_0. intros j Hj. rewrite decide_False; [done|]. intros ->. apply Hne. symmetry. apply (Nat.div_unique _ _ _ j); lia. }
    split; [|split].
    + intros g k Hk. rewrite Hvw, H8, Hflat by done. destruct (decide (k / n = i)); repeat case_decide; lra || lia.
    + intros g k Hk. rewrite Hvu, H9, Hflat by done. destruct (decide (k / m = i)); repeat case_decide; lra || lia.
    + intros g k Hk. rewrite Hvb, H10 by done. destruct (decide (k = i)) as [->|]; repeat case_decide; lra || lia.
  - cbn [Nat.add] in *. assert (Hdl : forall g i, i < m -> dl g i = delta d z g i).
    { intros g i Hi. unfold delta, dl. pose proof (H7 g i Hi) as Hg. pose proof (H7 Candidate i Hi) as Hc. destruct g; cbn [at_gate] in *; by rewrite ?Hg, ?Hc. }
    exists gr', d, dy'. split; [exact E|]. do 4 (split; [done|]). split.
    { intros i Hi. pose proof (H7 Forget i Hi) as F1. pose proof (H7 Input i Hi) as F2. pose proof (H7 Output i Hi) as F3. pose proof (H7 Candidate i Hi) as F4. cbn [at_gate] in *.
      rewrite F1, F2, F3, F4. done. }
    split; [|split]; intros g k Hk.
    + rewrite H8 by done. assert (k / n < m) by (apply Nat.div_lt_upper_bound; nia). rewrite decide_True by done. by rewrite Hdl.
    + rewrite H9 by done. assert (k / m < m) by (apply Nat.div_lt_upper_bound; nia). rewrite decide_True by done. by rewrite Hdl.
    + rewrite H10 by done. rewrite decide_True by done. by rewrite Hdl.
Qed.
