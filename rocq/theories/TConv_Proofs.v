From Verif Require Import NumLib NumLib3 Grad Conv_Model Conv_Spec Conv_Proofs.
Open Scope nat_scope.

Section tconv.
  Context (ii ij ki kj ch s1 s2 : nat) (K x : list R).
  Hypothesis Hs : tconv_shape ii ij ki kj ch K x.
  Let I := tdim ii ki s1. Let J := tdim ij kj s2.

  Lemma tdims : bool_decide (ii <> 0 /\ ij <> 0) = true /\ tout_dim ii ki s1 = I /\ tout_dim ij kj s2 = J.
  Proof. destruct Hs as (H1 & H2 & _). rewrite bool_decide_true by done. done. Qed.
  Lemma tfits n k s a i : a < n -> i < k -> a * s + i < tdim n k s.
  Proof. intros. unfold tdim. assert (a * s <= (n - 1) * s) by (apply Nat.mul_le_mono_r; lia). lia. Qed.
  Lemma toidx a b i j : i * J + j + b * s2 + a * s1 * J = (a * s1 + i) * J + (b * s2 + j). Proof. lia. Qed.
  Lemma txidx c a b : c * ii * ij + a * ij + b = (c * ii + a) * ij + b. Proof. lia. Qed.
  Lemma tkidx c i j : c * ki * kj + i * kj + j = (c * ki + i) * kj + j. Proof. lia. Qed.
  Lemma tk_lt c i j : c < ch -> i < ki -> j < kj -> (c * ki + i) * kj + j < length K.
  Proof. intros. destruct Hs as (_ & _ & -> & _). by apply at3_lt. Qed.
  Lemma tx_lt c a b : c < ch -> a < ii -> b < ij -> (c * ii + a) * ij + b < length x.
  Proof. intros. destruct Hs as (_ & _ & _ & ->). by apply at3_lt. Qed.
  Lemma to_lt a b i j : a < ii -> b < ij -> i < ki -> j < kj -> (a * s1 + i) * J + (b * s2 + j) < I * J.
  Proof. intros. apply flat_lt; by apply tfits. Qed.

  Lemma tfull_flat q : q < I * J ->
    sum2 ii ij (fun a b => sum3 ch ki kj (fun c i j => if decide (q = (a * s1 + i) * J + (b * s2 + j)) then (at3 ii ij x c a b * at3 ki kj K c i j)%R else 0%R)) =
    tfull ii ij ki kj ch s1 s2 K x (q / J) (q mod J).
  Proof.
    intros Hq. unfold tfull. apply sum2_ext. intros a b Ha Hb. apply sum3_ext. intros c i j Hc Hi Hj.
    pose proof (tfits ij kj s2 b j Hb Hj) as HJ. fold J in HJ.
    destruct (flat_split I J q Hq) as (H1 & H2 & H3).
    destruct (decide (q = (a * s1 + i) * J + (b * s2 + j))) as [E|E].
    - rewrite decide_True; [done|]. rewrite E. by rewrite flat_div, flat_mod.
    - rewrite decide_False; [done|]. intros [E1 E2]. apply E. lia.
  Qed.
  Lemma scatter_adds : Adds (I * J) (tconv_scatter x K ii ij ki kj ch J s1 s2) (fun q => tfull ii ij ki kj ch s1 s2 K x (q / J) (q mod J)).
  Proof.
    eapply Adds_ext; [|intros q Hq; by apply tfull_flat]. unfold tconv_scatter.
    apply (Adds_loop2 (I * J) ii ij 0 0). intros a b Ha Hb. cbn [Nat.add].
    apply (Adds_loop3 (I * J) ch ki kj _ (fun c i j q => if decide (q = (a * s1 + i) * J + (b * s2 + j)) then (at3 ii ij x c a b * at3 ki kj K c i j)%R else 0%R)).
    intros c i j Hc Hi Hj. eapply Adds_body; [|apply Adds_at; by apply to_lt].
    intros l Hl. rewrite txidx, tkidx, toidx. rewrite (rd_el x) by (by apply tx_lt). rewrite (rd_el K) by (by apply tk_lt). cbn [mbind option_bind]. done.
  Qed.
  (** the error seen from the uncropped map *)
  Definition uncrop (p : nat) (oe : list R) : list R :=
    map (fun q => if decide (p <= q / J < p + (I - 2 * p) /\ p <= q mod J < p + (J - 2 * p)) then el oe ((q / J - p) * (J - 2 * p) + (q mod J - p)) else 0%R) (seq 0 (I * J)).
  Lemma uncrop_0 oe : length oe = I * J -> uncrop 0 oe = oe.
  Proof.
    intros Hl. apply list_eq. intros q. destruct (decide (q < I * J)) as [Hq|Hq].
    - rewrite lookup_el by (unfold uncrop; by rewrite map_length, seq_length). rewrite lookup_el by lia. f_equal. unfold uncrop. rewrite el_map_seq by done.
      destruct (flat_split I J q Hq) as (H1 & H2 & H3). rewrite decide_True by lia. f_equal. rewrite !Nat.sub_0_r. lia.
    - rewrite !lookup_ge_None_2; [done|lia|unfold uncrop; rewrite map_length, seq_length; lia].
  Qed.
  Lemma inner_uncrop p oe (f : nat -> nat -> R) :
    sumn (I * J) (fun q => el (uncrop p oe) q * f (q / J)%nat (q mod J)%nat)%R =
    sumn ((I - 2 * p) * (J - 2 * p)) (fun q => el oe q * f (p + q / (J - 2 * p))%nat (p + q mod (J - 2 * p))%nat)%R.
  Proof.
    destruct (decide (I < 2 * p \/ J < 2 * p)) as [Hz|Hz].
    - assert (E : (I - 2 * p) * (J - 2 * p) = 0) by (destruct Hz; [replace (I - 2 * p) with 0 by lia; done|replace (J - 2 * p) with 0 by lia; lia]).
      rewrite E. cbn [sumn]. apply sumn_0. intros q Hq. unfold uncrop. rewrite el_map_seq by done. rewrite decide_False by lia. lra.
    - transitivity (sumn (I * J) (fun q => if decide (p <= q / J < p + (I - 2 * p) /\ p <= q mod J < p + (J - 2 * p)) then
        (fun q => el oe ((q / J - p) * (J - 2 * p) + (q mod J - p)) * f (q / J)%nat (q mod J)%nat)%R q else 0%R)).
      { apply sumn_ext. intros q Hq. unfold uncrop. rewrite el_map_seq by done. destruct (decide _); lra. }
      rewrite sumn_interior by lia. rewrite sumn_mul. unfold sum2. apply sumn_ext. intros r Hr. apply sumn_ext. intros s Hs'.
      cbn beta. rewrite !flat_div, !flat_mod by lia. by replace (p + r - p) with r by lia; replace (p + s - p) with s by lia.
  Qed.
  Lemma inner_tconv p oe b : inner ((I - 2 * p) * (J - 2 * p)) oe (tconv_map ii ij ki kj ch s1 s2 p K b x) =
    (sumn (I * J) (fun q => el (uncrop p oe) q * tfull ii ij ki kj ch s1 s2 K x (q / J) (q mod J)) + b * sumn (I * J) (fun q => el (uncrop p oe) q))%R.
  Proof.
    rewrite (inner_uncrop p oe (tfull ii ij ki kj ch s1 s2 K x)).
    rewrite (sumn_ext (I * J) (fun q => el (uncrop p oe) q) (fun q => el (uncrop p oe) q * (fun _ _ : nat => 1%R) (q / J)%nat (q mod J)%nat)%R) by (intros; lra).
    rewrite (inner_uncrop p oe (fun _ _ => 1%R)). rewrite <- sumn_scal_l, <- sumn_plus. unfold inner. apply sumn_ext. intros q Hq.
    unfold tconv_map. fold I J. rewrite el_map_seq by done. lra.
  Qed.
  Lemma sum_tfull err : sumn (I * J) (fun q => el err q * tfull ii ij ki kj ch s1 s2 K x (q / J) (q mod J))%R =
    sum2 ii ij (fun a b => sum3 ch ki kj (fun c i j => at3 ii ij x c a b * at3 ki kj K c i j * el err ((a * s1 + i) * J + (b * s2 + j)))%R).
  Proof.
    transitivity (sumn (I * J) (fun q => sum2 ii ij (fun a b => sum3 ch ki kj (fun c i j => if decide (q = (a * s1 + i) * J + (b * s2 + j)) then (el err q * (at3 ii ij x c a b * at3 ki kj K c i j))%R else 0%R)))).
    - apply sumn_ext. intros q Hq. rewrite <- tfull_flat by done. rewrite sum2_scal. apply sum2_ext. intros a b Ha Hb. rewrite sum3_scal. apply sum3_ext. intros c i j Hc Hi Hj.
      destruct (decide _); lra.
    - rewrite sumn_sum2_swap. apply sum2_ext. intros a b Ha Hb. rewrite sumn_sum3_swap. apply sum3_ext. intros c i j Hc Hi Hj.
      rewrite (sumn_single (I * J) ((a * s1 + i) * J + (b * s2 + j))); [rewrite decide_True by done; lra|by apply to_lt|]. intros q _ Hne. by rewrite decide_False.
  Qed.
  Lemma unpad_run p oe : length oe = (I - 2 * p) * (J - 2 * p) -> unpad oe I J p = Some (uncrop p oe).
  Proof.
    intros Hl. unfold unpad. set (W := J - 2 * p) in *.
    replace (J - p - p) with W by (unfold W; lia). replace (I - p - p) with (I - 2 * p) by lia.
    (* invariant: the first m cells of the crop have been copied *)
    set (T := fun m => map (fun q => if decide (p <= q / J < p + (I - 2 * p) /\ p <= q mod J < p + W /\ (q / J - p) * W + (q mod J - p) < m) then el oe ((q / J - p) * W + (q mod J - p)) else 0%R) (seq 0 (I * J))).
    assert (T0 : T 0 = replicate (I * J) 0%R).
    { apply list_eq. intros q. unfold T. change (map ?f ?l) with (f <$> l). rewrite list_lookup_fmap. destruct (decide (q < I * J)).
      - rewrite lookup_seq_lt by done. rewrite lookup_replicate_2 by done. cbn [fmap option_fmap option_map]. rewrite decide_False by lia. done.
      - rewrite lookup_seq_ge by lia. symmetry. apply lookup_ge_None_2. rewrite replicate_length. lia. }
    rewrite <- T0.
    assert (Hstep : forall r s, r < I - 2 * p -> s < W ->
      (e ← rd oe ((p + r - p) * W + (p + s) - p); wr (T (r * W + s)) ((p + r) * J + (p + s)) e) = Some (T (S (r * W + s)))).
    { intros r s Hr Hs'. pose proof (flat_lt (I - 2 * p) W r s Hr Hs') as Hlt. replace ((p + r - p) * W + (p + s) - p) with (r * W + s) by (replace (p + r - p) with r by lia; lia).
      rewrite rd_el by lia. cbn [mbind option_bind]. assert (HJ : p + s < J) by (unfold W in Hs'; lia). assert (Ho : (p + r) * J + (p + s) < I * J) by (apply flat_lt; lia).
      rewrite wr_Some by (unfold T; by rewrite map_length, seq_length). f_equal. apply list_eq. intros q.
      destruct (decide (q < I * J)) as [Hq|Hq].
      2:{ rewrite !lookup_ge_None_2; [done|unfold T; rewrite map_length, seq_length; lia|rewrite insert_length; unfold T; rewrite map_length, seq_length; lia]. }
      rewrite (lookup_el (T (S _))) by (unfold T; by rewrite map_length, seq_length). unfold T at 2. rewrite el_map_seq by done.
      destruct (flat_split I J q Hq) as (Q1 & Q2 & Q3).
      destruct (decide (q = (p + r) * J + (p + s))) as [E|E].
      - rewrite <- E. rewrite list_lookup_insert by (unfold T; by rewrite map_length, seq_length). f_equal.
        assert (q / J = p + r /\ q mod J = p + s) as [-> ->] by (rewrite E, flat_div, flat_mod by done; done).
        rewrite decide_True; [f_equal; lia|]. unfold W in *. replace (p + r - p) with r by lia. lia.
      - rewrite list_lookup_insert_ne by done. rewrite lookup_el by (unfold T; by rewrite map_length, seq_length). f_equal. unfold T. rewrite el_map_seq by done.
        destruct (decide (p <= q / J < p + (I - 2 * p) /\ p <= q mod J < p + W)) as [[Hw1 Hw2]|Hw].
        + assert ((q / J - p) * W + (q mod J - p) <> r * W + s).
          { intros E2. apply flat_inj in E2; [|lia..]. destruct E2 as [E2 E3]. apply E. replace (p + r) with (q / J) by lia. replace (p + s) with (q mod J) by lia. done. }
          destruct (decide ((q / J - p) * W + (q mod J - p) < r * W + s)); [rewrite !decide_True by lia|rewrite !decide_False by lia]; done.
        + rewrite !decide_False by naive_solver. done. }
    edestruct (for_loop_inv (fun i t => t = T ((i - p) * W)) (fun oi => for_loop W p (fun oj temp => e ← rd oe ((oi - p) * W + oj - p); wr temp (oi * J + oj) e)) (I - 2 * p) p (T 0)) as (t & E & Ht).
    - by rewrite Nat.sub_diag.
    - intros i t Hi ->. edestruct (for_loop_inv (fun s t => t = T ((i - p) * W + (s - p))) (fun oj temp => e ← rd oe ((i - p) * W + oj - p); wr temp (i * J + oj) e) W p (T ((i - p) * W))) as (t & E & Ht).
      + by rewrite Nat.sub_diag, Nat.add_0_r.
      + intros s t Hs' ->. pose proof (Hstep (i - p) (s - p) ltac:(lia) ltac:(lia)) as E. replace (p + (i - p)) with i in E by lia. replace (p + (s - p)) with s in E by lia.
        eexists. split; [exact E|]. f_equal. lia.
      + eexists. split; [exact E|]. rewrite Ht. f_equal. replace (p + W - p) with W by lia. replace (S i - p) with (S (i - p)) by lia. lia.
    - rewrite E, Ht. f_equal. unfold T, uncrop. fold W. apply map_ext_in. intros q Hq. apply in_seq in Hq.
      replace (p + (I - 2 * p) - p) with (I - 2 * p) by lia.
      destruct (decide (p <= q / J < p + (I - 2 * p) /\ p <= q mod J < p + W)) as [[Hw1 Hw2]|Hw]; [|rewrite !decide_False by naive_solver; done].
      rewrite decide_True; [done|]. split; [done|]. split; [done|]. apply flat_lt; lia.
  Qed.
  Lemma tbp_adds err : length err = I * J ->
    Adds2 (ch * ii * ij) (ch * ki * kj) (tconv_bp_loops x K err ii ij ki kj ch J s1 s2)
     (fun k => sum2 ii ij (fun a b => sum3 ch ki kj (fun c i j => if decide (k = (c * ii + a) * ij + b) then (at3 ki kj K c i j * el err ((a * s1 + i) * J + (b * s2 + j)))%R else 0%R)))
     (fun k => sum2 ii ij (fun a b => sum3 ch ki kj (fun c i j => if decide (k = (c * ki + i) * kj + j) then (at3 ii ij x c a b * el err ((a * s1 + i) * J + (b * s2 + j)))%R else 0%R))).
  Proof.
    intros He. unfold tconv_bp_loops. apply (Adds2_loop2 _ _ ii ij 0 0). intros a b Ha Hb. cbn [Nat.add].
    apply (Adds2_loop3 _ _ ch ki kj _ (fun c i j k => if decide (k = (c * ii + a) * ij + b) then (at3 ki kj K c i j * el err ((a * s1 + i) * J + (b * s2 + j)))%R else 0%R)
      (fun c i j k => if decide (k = (c * ki + i) * kj + j) then (at3 ii ij x c a b * el err ((a * s1 + i) * J + (b * s2 + j)))%R else 0%R)).
    intros c i j Hc Hi Hj. pose proof (tk_lt c i j Hc Hi Hj) as Hk. pose proof (tx_lt c a b Hc Ha Hb) as Hx. pose proof (to_lt a b i j Ha Hb Hi Hj).
    destruct Hs as (_ & _ & HK & HX).
    eapply Adds2_body; [|apply Adds_at; rewrite HX in Hx; exact Hx|apply Adds_at; rewrite HK in Hk; exact Hk].
    intros u v Hu Hv. rewrite txidx, tkidx, toidx. rewrite (rd_el err), (rd_el x), (rd_el K) by lia. cbn [mbind option_bind fst snd]. done.
  Qed.
End tconv.

Lemma tconv_partial_x ii ij ki kj ch s1 s2 p K b x oe k : tconv_shape ii ij ki kj ch K x -> k < length x ->
  let I := tdim ii ki s1 in let J := tdim ij kj s2 in
  has_partial (fun x => inner ((I - 2 * p) * (J - 2 * p)) oe (tconv_map ii ij ki kj ch s1 s2 p K b x)) x k
    (sum2 ii ij (fun a b => sum3 ch ki kj (fun c i j => if decide (k = (c * ii + a) * ij + b) then (at3 ki kj K c i j * el (uncrop ii ij ki kj s1 s2 p oe) ((a * s1 + i) * J + (b * s2 + j)))%R else 0%R))).
Proof.
  intros Hs Hk I J. unfold has_partial. set (err := uncrop ii ij ki kj s1 s2 p oe).
  eapply dlim_ext.
  { intros t. etransitivity; [apply inner_tconv|]. rewrite sum_tfull. reflexivity. }
  fold err. eapply dlim_val; [|apply dlim_plus; [|apply dlim_const]]; [apply Rplus_0_r|].
  apply (dlim_sum2 ii ij (fun a b t => sum3 ch ki kj (fun c i j => at3 ii ij (<[k := t]> x) c a b * at3 ki kj K c i j * el err ((a * s1 + i) * J + (b * s2 + j)))%R)). intros a b' Ha Hb.
  apply (dlim_sum3 ch ki kj (fun c i j t => (at3 ii ij (<[k := t]> x) c a b' * at3 ki kj K c i j * el err ((a * s1 + i) * J + (b' * s2 + j)))%R)). intros c i j Hc Hi Hj.
  eapply dlim_val; [|apply dlim_mult; [apply dlim_mult; [unfold at3; apply dlim_el; exact Hk|apply dlim_const]|apply dlim_const]].
  destruct (decide ((c * ii + a) * ij + b' = k)); [rewrite decide_True by done; lra|rewrite decide_False by done; lra].
Qed.
Lemma tconv_partial_K ii ij ki kj ch s1 s2 p K b x oe k : tconv_shape ii ij ki kj ch K x -> k < length K ->
  let I := tdim ii ki s1 in let J := tdim ij kj s2 in
  has_partial (fun K => inner ((I - 2 * p) * (J - 2 * p)) oe (tconv_map ii ij ki kj ch s1 s2 p K b x)) K k
    (sum2 ii ij (fun a b => sum3 ch ki kj (fun c i j => if decide (k = (c * ki + i) * kj + j) then (at3 ii ij x c a b * el (uncrop ii ij ki kj s1 s2 p oe) ((a * s1 + i) * J + (b * s2 + j)))%R else 0%R))).
Proof.
  intros Hs Hk I J. unfold has_partial. set (err := uncrop ii ij ki kj s1 s2 p oe).
  eapply dlim_ext.
  { intros t. etransitivity; [apply inner_tconv|]. rewrite sum_tfull. reflexivity. }
  fold err. eapply dlim_val; [|apply dlim_plus; [|apply dlim_const]]; [apply Rplus_0_r|].
  apply (dlim_sum2 ii ij (fun a b t => sum3 ch ki kj (fun c i j => at3 ii ij x c a b * at3 ki kj (<[k := t]> K) c i j * el err ((a * s1 + i) * J + (b * s2 + j)))%R)). intros a b' Ha Hb.
  apply (dlim_sum3 ch ki kj (fun c i j t => (at3 ii ij x c a b' * at3 ki kj (<[k := t]> K) c i j * el err ((a * s1 + i) * J + (b' * s2 + j)))%R)). intros c i j Hc Hi Hj.
  eapply dlim_val; [|apply dlim_mult; [apply dlim_scal; unfold at3; apply dlim_el; exact Hk|apply dlim_const]].
  destruct (decide ((c * ki + i) * kj + j = k)); [rewrite decide_True by done; lra|rewrite decide_False by done; lra].
Qed.
Lemma tconv_partial_b ii ij ki kj ch s1 s2 p K b x oe : tconv_shape ii ij ki kj ch K x ->
  let I := tdim ii ki s1 in let J := tdim ij kj s2 in
  derivable_pt_lim (fun b => inner ((I - 2 * p) * (J - 2 * p)) oe (tconv_map ii ij ki kj ch s1 s2 p K b x)) b
    (sumn (I * J) (fun q => el (uncrop ii ij ki kj s1 s2 p oe) q)).
Proof.
  intros Hs I J. eapply dlim_ext; [intros t; apply inner_tconv|].
  eapply (dlim_affine _ _ _ (sumn (I * J) (fun q => el (uncrop ii ij ki kj s1 s2 p oe) q * tfull ii ij ki kj ch s1 s2 K x (q / J) (q mod J)))%R). intros t. fold I J. lra.
Qed.
