From Verif Require Import NumLib NumLib3 Grad Conv_Model Conv_Spec.
Open Scope nat_scope.

Lemma window_fits n k s r i : k <= n -> s <> 0 -> r < positions n k s -> i < k -> r * s + i < n.
Proof.
  intros Hk Hs Hr Hi. unfold positions in Hr. assert (r <= (n - k) / s) by lia.
  assert (r * s <= (n - k) / s * s) by (by apply Nat.mul_le_mono_r). pose proof (Nat.mul_div_le (n - k) s Hs). lia.
Qed.
Lemma at3_lt C I J c i j : c < C -> i < I -> j < J -> (c * I + i) * J + j < C * I * J.
Proof. intros Hc Hi Hj. pose proof (flat_lt C I c i Hc Hi). by apply flat_lt. Qed.

Section conv.
  Context (ii ij ki kj ch s1 s2 p : nat) (K x : list R).
  Hypothesis Hs : conv_shape ii ij ki kj ch s1 s2 p K x.
  Let PI := positions ii ki s1. Let PJ := positions ij kj s2. Let J := PJ + 2 * p. Let I := PI + 2 * p.

  Lemma dims : conv_ok ii ij ki kj s1 s2 = true /\ out_dim ii ki s1 p = I /\ out_dim ij kj s2 p = J /\ I - p - p = PI /\ J - p - p = PJ.
  Proof. destruct Hs as (H1 & H2 & H3 & H4 & _). unfold conv_ok. rewrite bool_decide_true by done. unfold I, J, PI, PJ, positions, out_dim. repeat split; lia. Qed.
  Lemma kidx c i j : c * ki * kj + i * kj + j = (c * ki + i) * kj + j. Proof. lia. Qed.
  Lemma xidx c i j r s : c * ii * ij + i * ij + j + (p + s - p) * s2 + (p + r - p) * s1 * ij = (c * ii + (r * s1 + i)) * ij + (s * s2 + j).
  Proof. replace (p + s - p) with s by lia. replace (p + r - p) with r by lia. lia. Qed.
  Lemma k_lt c i j : c < ch -> i < ki -> j < kj -> (c * ki + i) * kj + j < length K.
  Proof. intros. destruct Hs as (_ & _ & _ & _ & HK & _). rewrite HK. by apply at3_lt. Qed.
  Lemma x_lt c i j r s : c < ch -> i < ki -> j < kj -> r < PI -> s < PJ -> (c * ii + (r * s1 + i)) * ij + (s * s2 + j) < length x.
  Proof. intros Hc Hi Hj Hr Hs'. destruct Hs as (H1 & H2 & H3 & H4 & HK & ->). apply at3_lt; [done|by apply (window_fits ii ki s1)|by apply (window_fits ij kj s2)]. Qed.
  Lemma o_lt r s : r < PI -> s < PJ -> (p + r) * J + (p + s) < I * J.
  Proof. intros. apply flat_lt; unfold I, J; lia. Qed.

  Lemma conv_ff_adds bias : Adds (I * J) (fun out => convolutional_feed_forward x K ii ij ki kj bias ch out s1 s2 p)
    (fun q => sum2 PI PJ (fun r s => if decide (q = (p + r) * J + (p + s)) then (corr ii ij ki kj ch s1 s2 K x r s + bias)%R else 0%R)).
  Proof.
    unfold convolutional_feed_forward. destruct dims as (-> & -> & -> & -> & ->). cbn zeta.
    apply (Adds_loop2 (I * J) PI PJ p p). intros r s Hr Hs'. pose proof (o_lt r s Hr Hs') as Ho. eapply Adds_ext.
    - eapply Adds_seq; [|apply Adds_at, Ho].
      apply (Adds_loop3 (I * J) ch ki kj _ (fun c i j q => if decide (q = (p + r) * J + (p + s)) then (at3 ki kj K c i j * at3 ii ij x c (r * s1 + i) (s * s2 + j))%R else 0%R)).
      intros c i j Hc Hi Hj. eapply Adds_body.
      + intros l Hl. rewrite kidx, xidx. rewrite !rd_el by (by apply x_lt || apply k_lt). cbn [mbind option_bind]. reflexivity.
      + by apply Adds_at.
    - intros q Hq. cbn beta. destruct (decide (q = (p + r) * J + (p + s))); [done|]. rewrite sum3_0 by done. lra.
  Qed.

  Lemma conv_cell_adds oe r s : length oe = I * J -> r < PI -> s < PJ ->
    Adds2 (ch * ki * kj) (ch * ii * ij) (conv_bp_cell x K oe ii ij ki kj ch J s1 s2 p (p + r) (p + s))
      (fun k => sum3 ch ki kj (fun c i j => if decide (k = (c * ki + i) * kj + j) then (el oe ((p + r) * J + (p + s)) * at3 ii ij x c (r * s1 + i) (s * s2 + j))%R else 0%R))
      (fun k => sum3 ch ki kj (fun c i j => if decide (k = (c * ii + (r * s1 + i)) * ij + (s * s2 + j)) then (at3 ki kj K c i j * el oe ((p + r) * J + (p + s)))%R else 0%R)).
  Proof.
    intros Ho Hr Hs'. unfold conv_bp_cell.
    apply (Adds2_loop3 _ _ ch ki kj _ (fun c i j k => if decide (k = (c * ki + i) * kj + j) then (el oe ((p + r) * J + (p + s)) * at3 ii ij x c (r * s1 + i) (s * s2 + j))%R else 0%R)
      (fun c i j k => if decide (k = (c * ii + (r * s1 + i)) * ij + (s * s2 + j)) then (at3 ki kj K c i j * el oe ((p + r) * J + (p + s)))%R else 0%R)).
    intros c i j Hc Hi Hj. pose proof (k_lt c i j Hc Hi Hj) as Hk. pose proof (x_lt c i j r s Hc Hi Hj Hr Hs') as Hx. pose proof (o_lt r s Hr Hs').
    destruct Hs as (_ & _ & _ & _ & HK & HX).
    eapply Adds2_body; [|apply Adds_at; rewrite HK in Hk; exact Hk|apply Adds_at; rewrite HX in Hx; exact Hx].
    intros a b Ha Hb. rewrite kidx, xidx. rewrite (rd_el oe), (rd_el x), (rd_el K) by lia. cbn [mbind option_bind fst snd]. done.
  Qed.

  (** <error, feature map> as a sum over the un-padded cells *)
  Lemma inner_conv oe b : inner (I * J) oe (conv_map ii ij ki kj ch s1 s2 p K b x) =
    sum2 PI PJ (fun r s => el oe ((p + r) * J + (p + s)) * (corr ii ij ki kj ch s1 s2 K x r s + b))%R.
  Proof.
    unfold inner. transitivity (sumn (I * J) (fun q => if decide (p <= q / J < p + PI /\ p <= q mod J < p + PJ) then
      (fun q => el oe q * (corr ii ij ki kj ch s1 s2 K x (q / J - p) (q mod J - p) + b))%R q else 0%R)).
    - apply sumn_ext. intros q Hq. unfold conv_map. fold PI PJ. fold I J. rewrite el_map_seq by done. destruct (decide _); lra.
    - rewrite sumn_interior by (unfold I, J; lia). apply sum2_ext. intros r s Hr Hs'. cbn beta. rewrite flat_div, flat_mod by (unfold J; lia).
      by replace (p + r - p) with r by lia; replace (p + s - p) with s by lia.
  Qed.
End conv.

Lemma conv_partial_K ii ij ki kj ch s1 s2 p K b x oe k : conv_shape ii ij ki kj ch s1 s2 p K x -> k < length K ->
  let PI := positions ii ki s1 in let PJ := positions ij kj s2 in let J := PJ + 2 * p in
  has_partial (fun K => inner ((PI + 2 * p) * J) oe (conv_map ii ij ki kj ch s1 s2 p K b x)) K k
    (sum2 PI PJ (fun r s => sum3 ch ki kj (fun c i j => if decide (k = (c * ki + i) * kj + j) then (el oe ((p + r) * J + (p + s)) * at3 ii ij x c (r * s1 + i) (s * s2 + j))%R else 0%R))).
Proof.
  intros Hs Hk PI PJ J. unfold has_partial. eapply dlim_ext; [intros t; apply inner_conv|].
  apply (dlim_sum2 PI PJ (fun r s t => (el oe ((p + r) * J + (p + s)) * (corr ii ij ki kj ch s1 s2 (<[k := t]> K) x r s + b))%R)).
  intros r s Hr Hs'. eapply dlim_val; [|apply dlim_scal, dlim_plus; [apply (dlim_sum3 ch ki kj (fun c i j t => (at3 ki kj (<[k := t]> K) c i j * at3 ii ij x c (r * s1 + i) (s * s2 + j))%R))|apply dlim_const]].
  2:{ intros c i j Hc Hi Hj. apply dlim_mult; [unfold at3; by apply dlim_el|apply dlim_const]. }
  cbn beta. rewrite Rplus_0_r, sum3_scal. apply sum3_ext. intros c i j Hc Hi Hj.
  destruct (decide ((c * ki + i) * kj + j = k)); [rewrite decide_True by done; lra|rewrite decide_False by done; lra].
Qed.
Lemma conv_partial_x ii ij ki kj ch s1 s2 p K b x oe k : conv_shape ii ij ki kj ch s1 s2 p K x -> k < length x ->
  let PI := positions ii ki s1 in let PJ := positions ij kj s2 in let J := PJ + 2 * p in
  has_partial (fun x => inner ((PI + 2 * p) * J) oe (conv_map ii ij ki kj ch s1 s2 p K b x)) x k
    (sum2 PI PJ (fun r s => sum3 ch ki kj (fun c i j => if decide (k = (c * ii + (r * s1 + i)) * ij + (s * s2 + j)) then (at3 ki kj K c i j * el oe ((p + r) * J + (p + s)))%R else 0%R))).
Proof.
  intros Hs Hk PI PJ J. unfold has_partial. eapply dlim_ext; [intros t; apply inner_conv|].
  apply (dlim_sum2 PI PJ (fun r s t => (el oe ((p + r) * J + (p + s)) * (corr ii ij ki kj ch s1 s2 K (<[k := t]> x) r s + b))%R)).
  intros r s Hr Hs'. eapply dlim_val; [|apply dlim_scal, dlim_plus; [apply (dlim_sum3 ch ki kj (fun c i j t => (at3 ki kj K c i j * at3 ii ij (<[k := t]> x) c (r * s1 + i) (s * s2 + j))%R))|apply dlim_const]].
  2:{ intros c i j Hc Hi Hj. apply dlim_scal. unfold at3. by apply dlim_el. }
  cbn beta. rewrite Rplus_0_r, sum3_scal. apply sum3_ext. intros c i j Hc Hi Hj.
  destruct (decide ((c * ii + (r * s1 + i)) * ij + (s * s2 + j) = k)); [rewrite decide_True by done; lra|rewrite decide_False by done; lra].
Qed.
Lemma conv_partial_b ii ij ki kj ch s1 s2 p K b x oe :
  let PI := positions ii ki s1 in let PJ := positions ij kj s2 in let J := PJ + 2 * p in
  derivable_pt_lim (fun b => inner ((PI + 2 * p) * J) oe (conv_map ii ij ki kj ch s1 s2 p K b x)) b
    (sum2 PI PJ (fun r s => el oe ((p + r) * J + (p + s)))).
Proof.
  intros PI PJ J. eapply dlim_ext; [intros t; apply inner_conv|].
  apply (dlim_sum2 PI PJ (fun r s t => (el oe ((p + r) * J + (p + s)) * (corr ii ij ki kj ch s1 s2 K x r s + t))%R)).
  intros r s Hr Hs'. eapply dlim_val; [|apply dlim_scal, dlim_plus; [apply dlim_const|apply dlim_id]]. lra.
Qed.
