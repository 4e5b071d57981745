(** C31: attention weights are distributions, masking is causal, the backward pass is the exact gradient; the memory
    layouts under which this is true, and those under which it is not. *)
From Verif Require Import NumLib3 Softmax_Model Softmax_Props Attn_Model Attn_Spec Attn_Proofs.
Open Scope R_scope.

(** C31: self_attention_ff stays inside its arrays; every row of the attention weights is the softmax of the scaled
    dot products over the visible tokens, a distribution; the outputs are the weighted values *)
Theorem C31_attention : forall q k v score0 soft0 out0 n ke ve masked,
  length q = (n * ke)%nat -> length k = (n * ke)%nat -> length v = (ve * n)%nat ->
  length score0 = (n * n)%nat -> length soft0 = (n * n)%nat -> length out0 = (n * ve)%nat ->
  (forall i, el soft0 i = 0) ->
  exists sc sf o, self_attention_ff q k v score0 soft0 out0 n masked ke ve = Some (sc, sf, o) /\ length o = (n * ve)%nat /\
    (forall t s, (t < n)%nat -> (s < n)%nat -> el sf (t * n + s) = weight masked q k n ke t s) /\
    (forall t, (t < n)%nat -> sumn n (fun s => el sf (t * n + s)) = 1 /\ forall s, (s < n)%nat -> 0 <= el sf (t * n + s) <= 1 /\ (0 < el sf (t * n + s) <-> (s < visible masked n t)%nat)) /\
    (forall t c, (t < n)%nat -> (c < ve)%nat -> el o (t * ve + c) = el out0 (t * ve + c) + attention masked q k v n ke t c).
Proof.
  intros q k v score0 soft0 out0 n ke ve masked Hq Hk Hv Hsc Hsf Ho H0.
  destruct (ff_run q k v score0 soft0 out0 n ke ve masked Hq Hk Hv Hsc Hsf Ho) as (sc & sf & o & E & L1 & L2 & L3 & G1 & G2 & G3).
  assert (G : forall t s, (t < n)%nat -> (s < n)%nat -> el sf (t * n + s) = weight masked q k n ke t s).
  { intros t s Ht Hs. rewrite G2 by done. destruct (decide _) as [|Hn]; [done|]. rewrite H0. unfold weight. by rewrite decide_False. }
  assert (Hpos : forall t, (t < n)%nat -> 0 < sumn (visible masked n t) (fun s => exp (score q k ke t s))).
  { intros t Ht. apply sumn_pos; [pose proof (visible_le masked n t Ht); lia|]. intros. apply exp_pos. }
  assert (Hw : forall t s, (t < n)%nat -> 0 <= weight masked q k n ke t s /\ (0 < weight masked q k n ke t s <-> (s < visible masked n t)%nat)).
  { intros t s Ht. unfold weight. destruct (decide _); [|split; [lra|]; split; [lra|lia]].
    assert (0 < exp (score q k ke t s) / sumn (visible masked n t) (fun s => exp (score q k ke t s))) by (apply Rdiv_lt_0_compat; [apply exp_pos|by apply Hpos]). split; [lra|]. split; [done|lra]. }
  assert (Hsum : forall t, (t < n)%nat -> sumn n (fun s => weight masked q k n ke t s) = 1).
  { intros t Ht. pose proof (visible_le masked n t Ht) as Hvis. replace n with (visible masked n t + (n - visible masked n t))%nat at 1 by lia. rewrite sumn_add.
    rewrite (sumn_0 (n - _)) by (intros i Hi; unfold weight; by rewrite decide_False by lia).
    rewrite (sumn_ext _ (fun s => weight masked q k n ke t s) (fun s => exp (score q k ke t s) * / sumn (visible masked n t) (fun s => exp (score q k ke t s)))) by (intros i Hi; unfold weight; by rewrite decide_True by lia).
    rewrite sumn_scal_r. pose proof (Hpos t Ht). field. lra. }
  exists sc, sf, o. split; [done|]. split; [done|]. split; [done|]. split.
  - intros t Ht. rewrite (sumn_ext n _ (fun s => weight masked q k n ke t s)) by (intros; by apply G). split; [by apply Hsum|].
    intros s Hs. rewrite G by done. destruct (Hw t s Ht) as [W1 W2]. split; [|done]. split; [done|]. rewrite <- (Hsum t Ht).
    apply (sumn_ge_term n (fun s => weight masked q k n ke t s)); [done|]. intros i Hi. by apply Hw.
  - intros t c Ht Hc. rewrite G3 by done. f_equal. unfold attention. apply sumn_ext. intros s Hs. by rewrite G.
Qed.
Print Assumptions C31_attention.

(** C31: with masking, what is computed for the tokens up to i does not depend on the queries, keys and values of the
    tokens after i (in the layout of Attn_Spec.v) *)
Theorem C31_masking_is_causal : forall i n ke ve q k v q' k' v' score0 soft0 out0 score0' r r',
  length q = (n * ke)%nat -> length k = (n * ke)%nat -> length v = (ve * n)%nat ->
  length q' = (n * ke)%nat -> length k' = (n * ke)%nat -> length v' = (ve * n)%nat ->
  length score0 = (n * n)%nat -> length score0' = (n * n)%nat -> length soft0 = (n * n)%nat -> length out0 = (n * ve)%nat ->
  (forall x, el soft0 x = 0) ->
  (forall t x, (t <= i)%nat -> (x < ke)%nat -> el q (t * ke + x) = el q' (t * ke + x)) ->
  (forall t x, (t <= i)%nat -> (x < ke)%nat -> el k (t * ke + x) = el k' (t * ke + x)) ->
  (forall t c, (t <= i)%nat -> (c < ve)%nat -> el v (c * n + t) = el v' (c * n + t)) ->
  self_attention_ff q k v score0 soft0 out0 n true ke ve = Some r ->
  self_attention_ff q' k' v' score0' soft0 out0 n true ke ve = Some r' ->
  forall t c, (t <= i)%nat -> (t < n)%nat -> (c < ve)%nat -> el r.2 (t * ve + c) = el r'.2 (t * ve + c).
Proof.
  intros i n ke ve q k v q' k' v' score0 soft0 out0 score0' r r' Hq Hk Hv Hq' Hk' Hv' Hs Hs' Hsf Ho H0 Eq Ek Ev E E' t c Hti Ht Hc.
  destruct (C31_attention q k v score0 soft0 out0 n ke ve true) as (sc & sf & o & R1 & _ & _ & _ & G); try done.
  destruct (C31_attention q' k' v' score0' soft0 out0 n ke ve true) as (sc' & sf' & o' & R1' & _ & _ & _ & G'); try done.
  rewrite R1 in E. injection E as <-. rewrite R1' in E'. injection E' as <-. cbn [snd]. rewrite G, G' by done. f_equal.
  unfold attention. apply sumn_ext. intros s Hsn. unfold weight. cbn [visible].
  assert (Hsc : forall s, (s <= t)%nat -> score q k ke t s = score q' k' ke t s).
  { intros s' Hs'2. unfold score. f_equal. apply sumn_ext. intros x Hx. rewrite Eq, Ek by lia. done. }
  destruct (decide (s < S t)%nat) as [Hlt|]; [|lra]. rewrite Hsc by lia. rewrite Ev by lia. f_equal. f_equal. apply sumn_ext. intros s' Hs'2. rewrite Hsc by lia. done.
Qed.
Print Assumptions C31_masking_is_causal.

Lemma curve_softmax m (x : nat -> R -> R) (x' u : nat -> R) s0 : (0 < m)%nat -> (forall s, (s < m)%nat -> derivable_pt_lim (x s) s0 (x' s)) ->
  let w s := exp (x s s0) / sumn m (fun s => exp (x s s0)) in
  derivable_pt_lim (fun z => sumn m (fun s => u s * (exp (x s z) / sumn m (fun s => exp (x s z))))) s0
    (sumn m (fun j => x' j * (w j * (u j - sumn m (fun i => u i * w i))))).
Proof.
  intros Hm Hx w. set (Z := fun z => sumn m (fun s => exp (x s z))). set (N := fun z => sumn m (fun s => u s * exp (x s z))).
  assert (HZ : derivable_pt_lim Z s0 (sumn m (fun s => exp (x s s0) * x' s))).
  { apply (dlim_sumn m (fun s z => exp (x s z))). intros s Hs. apply (dlim_comp (x s) exp); [by apply Hx|apply derivable_pt_lim_exp]. }
  assert (HN : derivable_pt_lim N s0 (sumn m (fun s => u s * (exp (x s s0) * x' s)))).
  { apply (dlim_sumn m (fun s z => u s * exp (x s z))). intros s Hs. apply dlim_scal. apply (dlim_comp (x s) exp); [by apply Hx|apply derivable_pt_lim_exp]. }
  assert (Hp : 0 < Z s0) by (apply sumn_pos; [done|intros; apply exp_pos]).
  assert (E : forall z, sumn m (fun s => u s * (exp (x s z) / sumn m (fun s => exp (x s z)))) = N z / Z z).
  { intros z. fold (Z z). unfold N, Rdiv. rewrite <- sumn_scal_r. apply sumn_ext. intros. ring. }
  eapply dlim_ext; [exact E|]. eapply dlim_val; [|apply (dlim_div N Z); [exact HN|exact HZ|lra]].
  pose proof (E s0) as E0. cbv beta in E0. unfold w. rewrite E0. fold (Z s0).
  rewrite (sumn_ext m (fun j => x' j * (exp (x j s0) / Z s0 * (u j - N s0 / Z s0))) (fun j => / Z s0 * (u j * (exp (x j s0) * x' j)) - (N s0 / (Z s0 * Z s0)) * (exp (x j s0) * x' j))).
  - rewrite sumn_minus, !sumn_scal_l. unfold Rsqr. field. lra.
  - intros j Hj. field. lra.
Qed.

(** the loss row by row *)
Lemma loss_rows masked q k v err n ke ve :
  attention_loss masked q k v err n ke ve =
  sumn n (fun t => sumn (visible masked n t) (fun s => sumn ve (fun c => el v (c * n + s) * el err (t * ve + c)) * (exp (score q k ke t s) / sumn (visible masked n t) (fun s => exp (score q k ke t s))))).
Proof.
  unfold attention_loss. apply sumn_ext. intros t Ht. unfold attention. pose proof (visible_le masked n t Ht) as Hvis.
  rewrite (sumn_ext ve _ (fun c => sumn n (fun s => el err (t * ve + c) * (weight masked q k n ke t s * el v (c * n + s))))) by (intros; by rewrite sumn_scal_l).
  rewrite sumn_swap. replace n with (visible masked n t + (n - visible masked n t))%nat at 1 by lia. rewrite sumn_add.
  rewrite (sumn_0 (n - _)) by (intros i Hi; apply sumn_0; intros c Hc; unfold weight; rewrite decide_False by lia; ring). rewrite Rplus_0_r.
  apply sumn_ext. intros s Hs. rewrite <- sumn_scal_r. apply sumn_ext. intros c Hc. unfold weight. rewrite decide_True by lia. ring.
Qed.

(** C31: self_attention_bp after self_attention_ff (score and softmax errors starting at 0) adds to the errors of the
    queries, keys and values exactly the partial derivatives of <output error, output> *)
Theorem C31_backward_is_the_gradient : forall q k v score0 soft0 out0 err e n ke ve masked,
  length q = (n * ke)%nat -> length k = (n * ke)%nat -> length v = (ve * n)%nat ->
  length score0 = (n * n)%nat -> length soft0 = (n * n)%nat -> length out0 = (n * ve)%nat -> length err = (n * ve)%nat ->
  length (e_query e) = (n * ke)%nat -> length (e_key e) = (n * ke)%nat -> length (e_value e) = (ve * n)%nat ->
  length (e_score e) = (n * n)%nat -> length (e_soft e) = (n * n)%nat ->
  (forall i, el soft0 i = 0) -> (forall i, el (e_score e) i = 0) -> (forall i, el (e_soft e) i = 0) ->
  exists sc sf o e', self_attention_ff q k v score0 soft0 out0 n masked ke ve = Some (sc, sf, o) /\
    self_attention_bp q k v sf err e n masked ke ve = Some e' /\
    grad_added (fun q => attention_loss masked q k v err n ke ve) q (e_query e) (e_query e') /\
    grad_added (fun k => attention_loss masked q k v err n ke ve) k (e_key e) (e_key e') /\
    grad_added (fun v => attention_loss masked q k v err n ke ve) v (e_value e) (e_value e').
Proof.
  intros q k v score0 soft0 out0 err e n ke ve masked Hq Hk Hv Hsc Hsf Ho Herr L1 L2 L3 L4 L5 Z1 Z2 Z3.
  destruct (C31_attention q k v score0 soft0 out0 n ke ve masked) as (sc & sf & o & E & Lo & G & _ & _); try done.
  assert (Lsf : length sf = (n * n)%nat).
  { destruct (ff_run q k v score0 soft0 out0 n ke ve masked Hq Hk Hv Hsc Hsf Ho) as (sc2 & sf2 & o2 & E2 & _ & L & _). rewrite E in E2. injection E2 as <- <- <-. done. }
  destruct (bp_run q k v sf err n ke ve masked e) as (e' & B & M1 & M2 & M3 & BV & BQ & BK); try done.
  exists sc, sf, o, e'. split; [done|]. split; [done|].
  set (u := fun t s => sumn ve (fun c => el v (c * n + s) * el err (t * ve + c))).
  set (W := fun t s => exp (score q k ke t s) / sumn (visible masked n t) (fun s => exp (score q k ke t s))).
  set (ds := fun t s => if decide (s < visible masked n t)%nat then W t s * (u t s - sumn (visible masked n t) (fun i => u t i * W t i)) else 0).
  assert (HW : forall t s, (t < n)%nat -> (s < visible masked n t)%nat -> el sf (t * n + s) = W t s).
  { intros t s Ht Hs. pose proof (visible_le masked n t Ht). rewrite G by lia. unfold weight. by rewrite decide_True. }
  assert (Hds : forall t s, (t < n)%nat -> (s < n)%nat -> el (e_score e) (t * n + s) + (if decide (s < visible masked n t)%nat then el sf (t * n + s) * (el (e_soft e) (t * n + s) + sumn ve (fun c => el v (c * n + s) * el err (t * ve + c)) - sumn (visible masked n t) (fun i => (el (e_soft e) (t * n + i) + sumn ve (fun c => el v (c * n + i) * el err (t * ve + c))) * el sf (t * n + i))) else 0) = ds t s).
  { intros t s Ht Hs. rewrite Z2. unfold ds. destruct (decide _); [|lra]. rewrite HW by done. rewrite Z3. fold (u t s). rewrite !Rplus_0_l. do 2 f_equal. apply sumn_ext. intros i Hi. rewrite HW, Z3 by done. fold (u t i). lra. }
  (* derivative along a curve of scores *)
  assert (Hcurve : forall (x : nat -> nat -> R -> R) (x' : nat -> nat -> R) s0,
    (forall t s, (t < n)%nat -> (s < n)%nat -> derivable_pt_lim (x t s) s0 (x' t s)) -> (forall t s, (t < n)%nat -> (s < n)%nat -> x t s s0 = score q k ke t s) ->
    derivable_pt_lim (fun z => sumn n (fun t => sumn (visible masked n t) (fun s => u t s * (exp (x t s z) / sumn (visible masked n t) (fun s => exp (x t s z)))))) s0
      (sumn n (fun t => sumn n (fun s => x' t s * ds t s)))).
  { intros x x' s0 Hx Hx0. apply (dlim_sumn n (fun t z => sumn (visible masked n t) (fun s => u t s * (exp (x t s z) / sumn (visible masked n t) (fun s => exp (x t s z)))))).
    intros t Ht. pose proof (visible_le masked n t Ht) as Hvis.
    eapply dlim_val; cycle 1; [apply (curve_softmax (visible masked n t) (x t) (x' t) (u t)); [lia|intros; apply Hx; lia]|].
    assert (Hsplit : sumn n (fun s => x' t s * ds t s) = sumn (visible masked n t) (fun s => x' t s * ds t s)).
    { transitivity (sumn (visible masked n t + (n - visible masked n t)) (fun s => x' t s * ds t s)); [f_equal; lia|]. rewrite sumn_add.
      rewrite (sumn_0 (n - _)) by (intros i Hi; unfold ds; rewrite decide_False by lia; ring). apply Rplus_0_r. }
    rewrite Hsplit.
    assert (HWx : forall s, (s < visible masked n t)%nat -> exp (x t s s0) / sumn (visible masked n t) (fun s => exp (x t s s0)) = W t s).
    { intros s Hs. rewrite Hx0 by lia. unfold W. f_equal. apply sumn_ext. intros i Hi. by rewrite Hx0 by lia. }
    apply sumn_ext. intros s Hs. rewrite HWx by done. unfold ds. rewrite decide_True by done. do 3 f_equal. apply sumn_ext. intros i Hi. by rewrite HWx. }
  assert (Hscore : forall c t s z qq kk, (forall x, (x < ke)%nat -> derivable_pt_lim (fun z => el (qq z) (t * ke + x) * el (kk z) (s * ke + x)) z (c x)) ->
     derivable_pt_lim (fun z => score (qq z) (kk z) ke t s) z (sumn ke c / R_sqrt.sqrt (INR ke))).
  { intros c t s z qq kk H. unfold score. assert (Er : forall z, sumn ke (fun x => el (qq z) (t * ke + x) * el (kk z) (s * ke + x)) / R_sqrt.sqrt (INR ke) = / R_sqrt.sqrt (INR ke) * sumn ke (fun x => el (qq z) (t * ke + x) * el (kk z) (s * ke + x))) by (intros; unfold Rdiv; ring).
    eapply dlim_ext; [exact Er|]. eapply dlim_val; [|apply dlim_scal; apply (dlim_sumn ke (fun x z => el (qq z) (t * ke + x) * el (kk z) (s * ke + x))); exact H]. unfold Rdiv. ring. }
  split; [|split].
  - split; [by rewrite M1, L1|]. intros p Hp. rewrite L1 in Hp. destruct (flat_split n ke p Hp) as (Hp1 & Hp2 & Ep). set (t0 := (p / ke)%nat) in *. set (x0 := (p mod ke)%nat) in *.
    eexists. rewrite Ep at 1 2. split; [apply BQ; done|]. unfold has_partial.
    assert (El : forall z, attention_loss masked (<[p:=z]> q) k v err n ke ve = sumn n (fun t => sumn (visible masked n t) (fun s => u t s * (exp (score (<[p:=z]> q) k ke t s) / sumn (visible masked n t) (fun s => exp (score (<[p:=z]> q) k ke t s)))))) by (intros; apply loss_rows).
    eapply dlim_ext; [exact El|]. eapply dlim_val; cycle 1.
    + apply (Hcurve (fun t s z => score (<[p:=z]> q) k ke t s) (fun t s => if decide (t = t0) then el k (s * ke + x0) / R_sqrt.sqrt (INR ke) else 0)).
      * intros t s Ht Hs. eapply dlim_val; cycle 1.
        { apply (Hscore (fun x => if decide (t = t0 /\ x = x0) then el k (s * ke + x0) else 0) t s (el q p) (fun z => <[p:=z]> q) (fun _ => k)).
          intros x Hx. eapply dlim_val; cycle 1; [apply dlim_mult; [apply dlim_el; lia|apply dlim_const]|].
          destruct (decide (t * ke + x = p)%nat) as [Epx|Hne].
          - rewrite Ep in Epx. apply flat_inj in Epx as [-> ->]; [|done|done]. rewrite decide_True by done. lra.
          - rewrite decide_False; [lra|]. intros [-> ->]. lia. }
        destruct (decide (t = t0)) as [->|].
        -- f_equal. rewrite (sumn_single ke x0); [by rewrite decide_True|done|]. intros i Hi Hne. rewrite decide_False by tauto. done.
        -- rewrite sumn_0; [lra|]. intros i Hi. rewrite decide_False by tauto. done.
      * intros t s Ht Hs. by rewrite upd_self.
    + rewrite (sumn_single n t0); [|done|intros t Ht Hne; apply sumn_0; intros s Hs; rewrite decide_False by done; ring].
      apply sumn_ext. intros s Hs. rewrite decide_True by done. rewrite <- (Hds t0 s) by done. unfold Rdiv. ring.
  - split; [by rewrite M2, L2|]. intros p Hp. rewrite L2 in Hp. destruct (flat_split n ke p Hp) as (Hp1 & Hp2 & Ep). set (t0 := (p / ke)%nat) in *. set (x0 := (p mod ke)%nat) in *.
    eexists. rewrite Ep at 1 2. split; [apply BK; done|]. unfold has_partial.
    assert (El : forall z, attention_loss masked q (<[p:=z]> k) v err n ke ve = sumn n (fun t => sumn (visible masked n t) (fun s => u t s * (exp (score q (<[p:=z]> k) ke t s) / sumn (visible masked n t) (fun s => exp (score q (<[p:=z]> k) ke t s)))))) by (intros; apply loss_rows).
    eapply dlim_ext; [exact El|]. eapply dlim_val; cycle 1.
    + apply (Hcurve (fun t s z => score q (<[p:=z]> k) ke t s) (fun t s => if decide (s = t0) then el q (t * ke + x0) / R_sqrt.sqrt (INR ke) else 0)).
      * intros t s Ht Hs. eapply dlim_val; cycle 1.
        { apply (Hscore (fun x => if decide (s = t0 /\ x = x0) then el q (t * ke + x0) else 0) t s (el k p) (fun _ => q) (fun z => <[p:=z]> k)).
          intros x Hx. eapply dlim_val; cycle 1; [apply dlim_mult; [apply dlim_const|apply dlim_el; lia]|].
          destruct (decide (s * ke + x = p)%nat) as [Epx|Hne].
          - rewrite Ep in Epx. apply flat_inj in Epx as [-> ->]; [|done|done]. rewrite decide_True by done. lra.
          - rewrite decide_False; [lra|]. intros [-> ->]. lia. }
        destruct (decide (s = t0)) as [->|].
        -- f_equal. rewrite (sumn_single ke x0); [by rewrite decide_True|done|]. intros i Hi Hne. rewrite decide_False by tauto. done.
        -- rewrite sumn_0; [lra|]. intros i Hi. rewrite decide_False by tauto. done.
      * intros t s Ht Hs. by rewrite upd_self.
    + apply sumn_ext. intros t Ht. rewrite (sumn_single n t0); [|done|intros s Hs Hne; rewrite decide_False by done; ring].
      rewrite decide_True by done. rewrite <- (Hds t t0) by done. unfold Rdiv. ring.
  - split; [by rewrite M3, L3|]. intros p Hp. rewrite L3 in Hp. destruct (flat_split ve n p Hp) as (Hp1 & Hp2 & Ep). set (c0 := (p / n)%nat) in *. set (s0 := (p mod n)%nat) in *.
    eexists. rewrite Ep at 1 2. split; [apply BV; done|]. unfold has_partial, attention_loss, attention. eapply dlim_val; cycle 1.
    + apply (dlim_sumn n (fun t z => sumn ve (fun c => el err (t * ve + c) * sumn n (fun s => weight masked q k n ke t s * el (<[p:=z]> v) (c * n + s))))). intros t Ht.
      apply (dlim_sumn ve (fun c z => el err (t * ve + c) * sumn n (fun s => weight masked q k n ke t s * el (<[p:=z]> v) (c * n + s)))). intros c Hc.
      apply dlim_scal. apply (dlim_sumn n (fun s z => weight masked q k n ke t s * el (<[p:=z]> v) (c * n + s))). intros s Hs. apply dlim_scal. apply dlim_el. lia.
    + apply sumn_ext. intros t Ht. rewrite (sumn_single ve c0); [|done|].
      * rewrite (sumn_single n s0); [|done|].
        -- rewrite decide_True by done. rewrite G by done. ring.
        -- intros s Hs Hne. rewrite decide_False by lia. ring.
      * intros c Hc Hne. rewrite sumn_0; [ring|]. intros s Hs. rewrite decide_False; [ring|]. intros Eq. rewrite Ep in Eq. apply flat_inj in Eq; [|done|done]. lia.
Qed.
Print Assumptions C31_backward_is_the_gradient.

(** Layouts.  self_attention_ff reads values one channel after the other.  If the values are stored one token after the
    other, as its documentation says of all three arrays, masking leaks: the output of token 0 depends on the value of
    token 1 *)
Theorem C31_token_major_values_leak_refuted : exists q k v v' n ke ve r r',
  (forall x, (x < ve)%nat -> el v (0 * ve + x) = el v' (0 * ve + x)) /\
  self_attention_ff q k v (replicate (n * n) 0) (replicate (n * n) 0) (replicate (n * ve) 0) n true ke ve = Some r /\
  self_attention_ff q k v' (replicate (n * n) 0) (replicate (n * n) 0) (replicate (n * ve) 0) n true ke ve = Some r' /\
  el r.2 (0 * ve + 1) <> el r'.2 (0 * ve + 1).
Proof.
  exists [0; 0], [0; 0], [0; 0; 0; 0], [0; 0; 1; 0], 2%nat, 1%nat, 2%nat.
  destruct (C31_attention [0; 0] [0; 0] [0; 0; 0; 0] (replicate 4 0) (replicate 4 0) (replicate 4 0) 2 1 2 true) as (sc & sf & o & E & _ & _ & _ & G); try done; [apply el_replicate|].
  destruct (C31_attention [0; 0] [0; 0] [0; 0; 1; 0] (replicate 4 0) (replicate 4 0) (replicate 4 0) 2 1 2 true) as (sc' & sf' & o' & E' & _ & _ & _ & G'); try done; [apply el_replicate|].
  exists (sc, sf, o), (sc', sf', o'). split; [intros [|[|x]] Hx; [done|done|lia]|]. split; [exact E|]. split; [exact E'|]. cbn [snd].
  rewrite G, G' by lia. rewrite !el_replicate. unfold attention, weight. cbn [visible sumn]. rewrite (decide_True (P := (0 < 1)%nat)) by lia. rewrite (decide_False (P := (1 < 1)%nat)) by lia.
  unfold el. cbn [Nat.mul Nat.add nth]. pose proof (exp_pos (score [0;0] [0;0] 1 0 0)) as Hp. set (a := exp _) in *. replace (a / (0 + a)) with 1 by (field; lra). lra.
Qed.
Print Assumptions C31_token_major_values_leak_refuted.

(** and if queries and keys are stored one channel after the other, as the convolutional projections that the
    transformer documentation prescribes produce them (transformer_encoder.c:32-37), masking leaks through the keys: the
    output of token 1 depends on the key of token 2 *)
Theorem C31_channel_major_keys_leak_refuted : exists q k k' v n ke ve r r',
  (forall e s, (e < ke)%nat -> (s <= 1)%nat -> el k (e * n + s) = el k' (e * n + s)) /\
  self_attention_ff q k v (replicate (n * n) 0) (replicate (n * n) 0) (replicate (n * ve) 0) n true ke ve = Some r /\
  self_attention_ff q k' v (replicate (n * n) 0) (replicate (n * n) 0) (replicate (n * ve) 0) n true ke ve = Some r' /\
  el r.2 (1 * ve + 0) <> el r'.2 (1 * ve + 0).
Proof.
  exists [0; 0; 1; 0; 0; 0], [0; 0; 0; 0; 0; 0], [0; 0; 1; 0; 0; 0], [0; 1; 0], 3%nat, 2%nat, 1%nat.
  destruct (C31_attention [0; 0; 1; 0; 0; 0] [0; 0; 0; 0; 0; 0] [0; 1; 0] (replicate 9 0) (replicate 9 0) (replicate 3 0) 3 2 1 true) as (sc & sf & o & E & _ & _ & _ & G); try done; [apply el_replicate|].
  destruct (C31_attention [0; 0; 1; 0; 0; 0] [0; 0; 1; 0; 0; 0] [0; 1; 0] (replicate 9 0) (replicate 9 0) (replicate 3 0) 3 2 1 true) as (sc' & sf' & o' & E' & _ & _ & _ & G'); try done; [apply el_replicate|].
  exists (sc, sf, o), (sc', sf', o'). split; [intros [|[|e]] [|[|s]] He Hs; try lia; done|]. split; [exact E|]. split; [exact E'|]. cbn [snd].
  rewrite G, G' by lia. rewrite !el_replicate. unfold attention, weight. cbn [visible sumn].
  rewrite !(decide_True (P := (0 < 2)%nat)), !(decide_True (P := (1 < 2)%nat)) by lia. rewrite !(decide_False (P := (2 < 2)%nat)) by lia.
  unfold score. cbn [sumn]. unfold el. cbn [Nat.mul Nat.add nth].
  set (r := R_sqrt.sqrt (INR 2)). assert (Hr : 0 < r) by (apply R_sqrt.sqrt_lt_R0; cbn; lra).
  replace ((0 + 0 * 0 + 0 * 0) / r) with 0 by (field; lra). replace ((0 + 1 * 0 + 0 * 0) / r) with 0 by (field; lra). replace ((0 + 1 * 1 + 0 * 0) / r) with (/ r) by (field; lra).
  rewrite exp_0. assert (H1 : 1 < exp (/ r)) by (rewrite <- exp_0; apply exp_increasing; by apply Rinv_0_lt_compat).
  set (x := exp (/ r)) in *. intros H.
  assert (H2 : 1 / (0 + 1 + 1) * 1 = x / (0 + 1 + x) * 1) by lra. assert (H3 : x = 1); [|lra]. apply (f_equal (fun a => a * (2 * (1 + x)))) in H2. field_simplify in H2; lra.
Qed.
Print Assumptions C31_channel_major_keys_leak_refuted.

(** multi_head_attention_ff: with equal embedding dimensions the final reshape puts channel c of head j of token i at
    i*heads*ve + j*ve + c *)
Theorem C31_heads_are_interleaved : forall output n heads ve,
  length output = (heads * n * ve)%nat ->
  exists o, reshape_heads output n heads ve ve = Some o /\ length o = length output /\
    forall i j c, (i < n)%nat -> (j < heads)%nat -> (c < ve)%nat -> el o (i * heads * ve + j * ve + c) = el output (j * n * ve + i * ve + c).
Proof.
  intros output n heads ve HL. unfold reshape_heads.
  assert (Hpos : forall i j c, (i < n)%nat -> (j < heads)%nat -> (c < ve)%nat -> (i * heads * ve + j * ve + c < heads * n * ve)%nat).
  { intros i j c Hi Hj Hc. replace (i * heads * ve + j * ve + c)%nat with ((i * heads + j) * ve + c)%nat by lia. apply flat_lt; [|done]. pose proof (flat_lt n heads i j Hi Hj). lia. }
  assert (Hsrc : forall i j c, (i < n)%nat -> (j < heads)%nat -> (c < ve)%nat -> (i * ve + j * n * ve + c < heads * n * ve)%nat).
  { intros i j c Hi Hj Hc. replace (i * ve + j * n * ve + c)%nat with ((j * n + i) * ve + c)%nat by lia. apply flat_lt; [|done]. by apply flat_lt. }
  assert (Hinj : forall i j c i' j' c', (j < heads)%nat -> (c < ve)%nat -> (j' < heads)%nat -> (c' < ve)%nat -> (i * heads * ve + j * ve + c = i' * heads * ve + j' * ve + c')%nat -> i = i' /\ j = j' /\ c = c').
  { intros i j c i' j' c' Hj Hc Hj' Hc' E. replace (i * heads * ve + j * ve + c)%nat with ((i * heads + j) * ve + c)%nat in E by lia. replace (i' * heads * ve + j' * ve + c')%nat with ((i' * heads + j') * ve + c')%nat in E by lia.
    apply flat_inj in E as [E ->]; [|done|done]. apply flat_inj in E as [-> ->]; done. }
  assert (Hcopy : forall src os od m dst, (os + m <= length src)%nat -> (od + m <= length dst)%nat ->
    exists d, copy_array src os dst od m = Some d /\ length d = length dst /\ forall p, el d p = if decide (od <= p < od + m)%nat then el src (os + (p - od)) else el dst p).
  { intros src os od m dst H1 H2. unfold copy_array.
    destruct (for_loop_inv (fun i d => length d = length dst /\ forall p, el d p = if decide (od <= p < od + i)%nat then el src (os + (p - od)) else el dst p)
       (fun i d => x ← rd src (os + i); wr d (od + i) x) m 0 dst) as (d & E & Ld & Hd).
    - split; [done|]. intros p. rewrite decide_False by lia. done.
    - intros i d Hi [Ld Hd]. rewrite (rd_el src) by lia. cbn [mbind option_bind]. rewrite wr_Some by lia. eexists. split; [done|].
      split; [by rewrite insert_length|]. intros p. destruct (decide (p = od + i)%nat) as [->|Hne].
      + rewrite el_upd_eq by lia. rewrite decide_True by lia. f_equal. lia.
      + rewrite el_upd_ne by done. rewrite Hd. destruct (decide (od <= p < od + i)%nat); [rewrite decide_True by lia|rewrite decide_False by lia]; done.
    - exists d. split; [exact E|]. split; [done|]. intros p. by rewrite Hd. }
  destruct (for_loop_inv2 (fun x t => length t = (heads * n * ve)%nat /\ forall i j c, (i * heads + j < x)%nat -> (i < n)%nat -> (j < heads)%nat -> (c < ve)%nat -> el t (i * heads * ve + j * ve + c) = el output (j * n * ve + i * ve + c))
    (fun i j t => copy_array output (i * ve + j * n * ve) t (i * heads * ve + j * ve) ve) n heads 0 0 (replicate (heads * n * ve) 0)) as (t & E & Lt & Ht).
  - split; [apply replicate_length|]. intros; lia.
  - intros i j t Hi Hj [Lt Ht]. cbn [Nat.add].
    destruct (decide (ve = 0)%nat) as [Ev|Hve].
    { destruct (Hcopy output (i * ve + j * n * ve)%nat (i * heads * ve + j * ve)%nat ve t) as (d & E & Ld & Hd); [subst; lia|subst; lia|].
      exists d. split; [done|]. split; [lia|]. intros; lia. }
    pose proof (Hsrc i j (ve - 1)%nat Hi Hj ltac:(lia)) as B1. pose proof (Hpos i j (ve - 1)%nat Hi Hj ltac:(lia)) as B2.
    destruct (Hcopy output (i * ve + j * n * ve)%nat (i * heads * ve + j * ve)%nat ve t) as (d & E & Ld & Hd); [lia|lia|].
    exists d. split; [done|]. split; [lia|]. intros i' j' c Hx Hi' Hj' Hc. rewrite Hd.
    destruct (decide _) as [Hin|Hout].
    + assert (Hs : i' = i /\ j' = j).
      { destruct (Hinj i' j' c i j (i' * heads * ve + j' * ve + c - (i * heads * ve + j * ve))%nat) as (-> & -> & _); [done|done|done|lia|lia|done]. }
      destruct Hs as [-> ->]. f_equal. lia.
    + apply Ht; [|done|done|done]. destruct (decide (i' * heads + j' = i * heads + j)%nat) as [Ee|]; [|lia]. apply flat_inj in Ee as [-> ->]; [lia|done|done].
  - rewrite E. cbn [mbind option_bind]. destruct (Hcopy t 0%nat 0%nat (n * heads * ve)%nat output) as (d & E2 & Ld & Hd); [lia|lia|].
    exists d. split; [exact E2|]. split; [done|]. intros i j c Hi Hj Hc. rewrite Hd. pose proof (Hpos i j c Hi Hj Hc). rewrite decide_True by lia.
    rewrite Nat.sub_0_r, Nat.add_0_l. apply Ht; [|done|done|done]. by apply flat_lt.
Qed.
Print Assumptions C31_heads_are_interleaved.

(** with wider keys than values the reshape reads outside the output array, which has heads*n*ve entries: the source
    offset uses the key width *)
Theorem C31_reshape_out_of_bounds_refuted : forall output n heads ke ve,
  length output = (heads * n * ve)%nat -> (0 < ve < ke)%nat -> (2 <= n * heads)%nat ->
  reshape_heads output n heads ke ve = None.
Proof.
  intros output n heads ke ve HL Hke Hnh. unfold reshape_heads.
  destruct (for_loop n 0 _ _) as [t|] eqn:E; [|done]. exfalso.
  assert (Hn : (0 < n)%nat) by (destruct n; lia). assert (Hh : (0 < heads)%nat) by (destruct heads; lia).
  assert (Hlast : forall T (body : nat -> T -> option T) m s s', (0 < m)%nat -> for_loop m 0 body s = Some s' -> exists s1, body (m - 1)%nat s1 = Some s').
  { intros T body m s s' Hm H. replace m with (S (m - 1)) in H by lia. rewrite for_loop_S_r in H. apply bind_Some in H as (s1 & _ & H). exists s1. by rewrite Nat.add_0_l in H. }
  apply Hlast in E as (t1 & E); [|done]. apply Hlast in E as (t2 & E); [|done]. unfold copy_array in E.
  apply Hlast in E as (t3 & E); [|lia]. apply bind_Some in E as (x & E & _). unfold rd in E. apply lookup_lt_Some in E. rewrite HL in E.
  assert (H1 : ((n - 1) * ke + (heads - 1) * n * ke = (n * heads - 1) * ke)%nat) by nia. rewrite H1 in E. nia.
Qed.
Print Assumptions C31_reshape_out_of_bounds_refuted.

Example C31_example : exists sc sf o,
  self_attention_ff [1; 2] [3; 4] [5; 6] (replicate 4 0) (replicate 4 0) (replicate 2 0) 2 true 1 1 = Some (sc, sf, o) /\ el o 0 = 5 /\ 5 < el o 1 < 6.
Proof.
  destruct (C31_attention [1; 2] [3; 4] [5; 6] (replicate 4 0) (replicate 4 0) (replicate 2 0) 2 1 1 true) as (sc & sf & o & E & _ & _ & _ & G); try done; [apply el_replicate|].
  exists sc, sf, o. split; [exact E|]. pose proof (G 0%nat 0%nat ltac:(lia) ltac:(lia)) as G0. pose proof (G 1%nat 0%nat ltac:(lia) ltac:(lia)) as G1. rewrite el_replicate in G0, G1. cbn [Nat.mul Nat.add] in G0, G1. rewrite G0, G1.
  unfold attention, weight. cbn [visible sumn].
  rewrite (decide_True (P := (0 < 1)%nat)), (decide_True (P := (0 < 2)%nat)), (decide_True (P := (1 < 2)%nat)) by lia. rewrite (decide_False (P := (1 < 1)%nat)) by lia.
  unfold el. cbn [Nat.mul Nat.add nth].
  pose proof (exp_pos (score [1;2] [3;4] 1 0 0)) as P0. pose proof (exp_pos (score [1;2] [3;4] 1 1 0)) as P1. pose proof (exp_pos (score [1;2] [3;4] 1 1 1)) as P2.
  set (a := exp (score [1;2] [3;4] 1 0 0)) in *. set (x := exp (score [1;2] [3;4] 1 1 0)) in *. set (y := exp (score [1;2] [3;4] 1 1 1)) in *.
  split; [field; lra|].
  replace (0 + (0 + x / (0 + x + y) * 5 + y / (0 + x + y) * 6)) with (5 + y / (x + y)) by (field; lra).
  assert (0 < y / (x + y)) by (apply Rdiv_lt_0_compat; lra). assert (y / (x + y) < 1); [|lra]. apply (Rmult_lt_reg_r (x + y)); [lra|]. unfold Rdiv. rewrite Rmult_assoc, Rinv_l by lra. lra.
Qed.

(** the hypotheses of the gradient theorem are met by two tokens, two channels, non-zero output error *)
Example C31_gradient_example : exists sc sf o e',
  self_attention_ff [1; 2; 0; 1] [3; 4; 1; 1] [5; 6; 7; 8] (replicate 4 0) (replicate 4 0) (replicate 4 0) 2 true 2 2 = Some (sc, sf, o) /\
  self_attention_bp [1; 2; 0; 1] [3; 4; 1; 1] [5; 6; 7; 8] sf [1; -1; 2; 3] (AttnErr (replicate 4 0) (replicate 4 0) (replicate 4 0) (replicate 4 0) (replicate 4 0)) 2 true 2 2 = Some e' /\
  grad_added (fun q => attention_loss true q [3; 4; 1; 1] [5; 6; 7; 8] [1; -1; 2; 3] 2 2 2) [1; 2; 0; 1] (replicate 4 0) (e_query e').
Proof.
  destruct (C31_backward_is_the_gradient [1; 2; 0; 1] [3; 4; 1; 1] [5; 6; 7; 8] (replicate 4 0) (replicate 4 0) (replicate 4 0) [1; -1; 2; 3]
    (AttnErr (replicate 4 0) (replicate 4 0) (replicate 4 0) (replicate 4 0) (replicate 4 0)) 2 2 2 true) as (sc & sf & o & e' & E & B & G & _); try done; try apply el_replicate.
  by exists sc, sf, o, e'.
Qed.

(** two runs that meet the hypotheses of the causality theorem and differ at token 1 *)
Example C31_causal_example : exists r r',
  self_attention_ff [1; 2] [3; 4] [5; 6] (replicate 4 0) (replicate 4 0) (replicate 2 0) 2 true 1 1 = Some r /\
  self_attention_ff [1; 9] [3; 8] [5; 7] (replicate 4 0) (replicate 4 0) (replicate 2 0) 2 true 1 1 = Some r' /\ el r.2 0 = el r'.2 0.
Proof.
  destruct (C31_attention [1; 2] [3; 4] [5; 6] (replicate 4 0) (replicate 4 0) (replicate 2 0) 2 1 1 true) as (sc & sf & o & E & _); try done; [apply el_replicate|].
  destruct (C31_attention [1; 9] [3; 8] [5; 7] (replicate 4 0) (replicate 4 0) (replicate 2 0) 2 1 1 true) as (sc' & sf' & o' & E' & _); try done; [apply el_replicate|].
  exists (sc, sf, o), (sc', sf', o'). split; [done|]. split; [done|].
  refine (C31_masking_is_causal 0 2 1 1 _ _ _ _ _ _ _ _ _ _ _ _ _ _ _ _ _ _ _ _ _ _ _ _ _ _ E E' 0%nat 0%nat _ _ _); try done; try lia; try apply el_replicate; intros [|t] [|x] Ht Hx; try lia; done.
Qed.
