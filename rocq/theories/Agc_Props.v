(** C53: adaptive gradient clipping *)
From Coq Require Import R_sqrt.
From Verif Require Import NumLib Upd_Model Upd_Spec Net_Model Net_Spec Net_Proofs Net_Clip Agc_Spec Agc_Proofs.
Open Scope nat_scope.

Lemma size_w_pos w eps u : (0 < eps)%R -> (0 < size_w w eps u)%R.
Proof. intros H. unfold size_w. eapply Rlt_le_trans; [exact H|apply Rmax_r]. Qed.
Lemma gnorm_nonneg h S : (0 <= gnorm h S)%R. Proof. apply sqrt_pos. Qed.
Lemma factor_range w thr eps h u : (0 <= thr)%R -> (0 < eps)%R -> (0 <= factor w thr eps h u <= 1)%R.
Proof.
  intros Ht He. pose proof (size_w_pos w eps u He) as Hw. pose proof (gnorm_nonneg h (unit_slots u)) as Hg. unfold factor. destruct (decide _) as [Hr|Hr]; [|lra].
  destruct (Req_dec (gnorm h (unit_slots u)) 0) as [E|E].
  - rewrite E in *. unfold Rdiv in *. rewrite Rinv_0, Rmult_0_r in Hr. lra.
  - assert (0 < size_w w eps u / gnorm h (unit_slots u))%R by (apply Rdiv_lt_0_compat; lra). set (r := (size_w w eps u / gnorm h (unit_slots u))%R) in *.
    split; [apply Rmult_le_pos; [|done]; unfold Rdiv; rewrite Rmult_1_l; apply Rlt_le, Rinv_0_lt_compat; done|]. replace (1 / r * thr)%R with (thr / r)%R by (field; lra). apply Rlt_le. apply Rmult_lt_reg_r with r; [done|]. unfold Rdiv. rewrite Rmult_assoc, Rinv_l, Rmult_1_r, Rmult_1_l by lra. done.
Qed.

(** every unit is multiplied by one factor between 0 and 1, all other gradients are kept *)
Theorem C53_model_partial w thr eps m h : no_conv_scores m -> NoDup (addrs m) -> units_allocated (model_units m) w h -> (0 <= thr)%R -> (0 < eps)%R ->
  exists h' k, adapt_model w thr eps m h = Some h' /\ units_scaled k (model_units m) h h' /\ forall u, (0 <= k u <= 1)%R.
Proof.
  intros Hc Hn Ha Ht He. destruct (Adapts_model w thr eps m Hc h Ha (NoDup_model_units m Hn)) as (h' & E & _ & Hs). exists h', (factor w thr eps h). split; [done|]. split; [done|]. intros u. by apply factor_range.
Qed.
Theorem C53_rmodel_partial w thr eps ls h : NoDup (map l_at ls) -> units_allocated (concat (map lstm_units ls)) w h -> (0 <= thr)%R -> (0 < eps)%R ->
  exists h' k, adapt_rmodel w thr eps ls h = Some h' /\ units_scaled k (concat (map lstm_units ls)) h h' /\ forall u, (0 <= k u <= 1)%R.
Proof.
  intros Hn Ha Ht He. destruct (Adapts_upto w thr eps ls (adapt_lstm w thr eps) lstm_units) with (h := h) as (h' & E & _ & Hs); [intros f _; apply Adapts_lstm|done|by apply NoDup_rmodel_units|].
  exists h', (factor w thr eps h). split; [done|]. split; [done|]. intros u. by apply factor_range.
Qed.
Lemma gnorm_scaled h h' u k : (0 <= k)%R -> (forall p, p ∈ unit_slots u -> get h' p = (k * get h p)%R) -> gnorm h' (unit_slots u) = (k * gnorm h (unit_slots u))%R.
Proof.
  intros Hk H. unfold gnorm. replace (sumsq h' (unit_slots u)) with (k * k * sumsq h (unit_slots u))%R.
  - rewrite sqrt_mult; [|nra|apply sumsq_nonneg]. by rewrite sqrt_square.
  - unfold sumsq. rewrite (suml_map_ext (fun p => get h' p * get h' p)%R (fun p => k * k * (get h p * get h p))%R).
    + generalize (unit_slots u). induction l as [|p l IH]; cbn [map]; [rewrite !suml_nil; lra|]. rewrite !suml_cons. lra.
    + intros p Hp. rewrite H by done. lra.
Qed.

(** the ratio is upside down: a unit whose gradient is at least 1/lambda times as large as its weights is left alone ... *)
Theorem C53_large_gradients_untouched_refuted w thr eps m h u : no_conv_scores m -> NoDup (addrs m) -> units_allocated (model_units m) w h -> (0 < thr < 1)%R -> (0 < eps)%R ->
  u ∈ model_units m -> (size_w w eps u <= thr * gnorm h (unit_slots u))%R ->
  exists h', adapt_model w thr eps m h = Some h' /\ (forall p, p ∈ unit_slots u -> get h' p = get h p) /\ (thr * size_w w eps u < gnorm h' (unit_slots u))%R /\
  (agc_factor thr eps w h u < 1)%R.
Proof.
  intros Hc Hn Ha Ht He Hu Hg. destruct (Adapts_model w thr eps m Hc h Ha (NoDup_model_units m Hn)) as (h' & E & _ & Hs & _). exists h'. split; [done|].
  pose proof (size_w_pos w eps u He) as Hw. assert (0 < gnorm h (unit_slots u))%R by nra.
  assert (F : factor w thr eps h u = 1%R).
  { unfold factor. rewrite decide_False; [done|]. apply Rle_not_lt. apply Rmult_le_reg_r with (gnorm h (unit_slots u)); [done|]. unfold Rdiv. rewrite Rmult_assoc, Rinv_l by lra. lra. }
  assert (Hp : forall p, p ∈ unit_slots u -> get h' p = get h p) by (intros p Hp; rewrite (Hs u p Hu Hp), F; lra). split; [done|].
  rewrite (gnorm_scaled h h' u 1); [|lra|intros p Hp'; rewrite Hp by done; lra]. split; [nra|].
  unfold agc_factor. rewrite decide_True by nra. apply Rmult_lt_reg_r with (gnorm h (unit_slots u)); [done|]. unfold Rdiv. rewrite Rmult_assoc, Rinv_l by lra. nra.
Qed.
(** ... and a smaller one is shrunk, although it is within the bound *)
Theorem C53_small_gradients_shrunk_refuted w thr eps m h u : no_conv_scores m -> NoDup (addrs m) -> units_allocated (model_units m) w h -> (0 < thr < 1)%R -> (0 < eps)%R ->
  u ∈ model_units m -> (0 < gnorm h (unit_slots u) <= thr * size_w w eps u)%R ->
  exists h', adapt_model w thr eps m h = Some h' /\ gnorm h' (unit_slots u) = (thr * gnorm h (unit_slots u) / size_w w eps u * gnorm h (unit_slots u))%R /\ (gnorm h' (unit_slots u) < gnorm h (unit_slots u))%R /\
  agc_factor thr eps w h u = 1%R.
Proof.
  intros Hc Hn Ha Ht He Hu Hg. destruct (Adapts_model w thr eps m Hc h Ha (NoDup_model_units m Hn)) as (h' & E & _ & Hs & _). exists h'. split; [done|].
  pose proof (size_w_pos w eps u He) as Hw. set (g := gnorm h (unit_slots u)) in *. set (s := size_w w eps u) in *.
  assert (F : factor w thr eps h u = (thr * g / s)%R).
  { unfold factor. fold g s. rewrite decide_True; [field; lra|]. apply Rmult_lt_reg_r with g; [lra|]. unfold Rdiv. rewrite Rmult_assoc, Rinv_l by lra. nra. }
  assert (K : (0 <= thr * g / s < 1)%R).
  { split; [apply Rlt_le, Rdiv_lt_0_compat; nra|]. apply Rmult_lt_reg_r with s; [done|]. unfold Rdiv. rewrite Rmult_assoc, Rinv_l by lra. nra. }
  rewrite (gnorm_scaled h h' u (thr * g / s)); [|lra|intros p Hp'; rewrite (Hs u p Hu Hp'), F; done]. fold g. split; [done|]. split; [nra|]. unfold agc_factor. fold g s. by rewrite decide_False by lra.
Qed.
(** convolutions trained by their scores: only the last score of every kernel is ever scaled *)
Theorem C53_conv_scores_refuted w thr eps f h h' p : cv_conv (c_cfg f) = true -> cv_mode (c_cfg f) = EDGE_POPUP -> adapt_cl w thr eps f h = Some h' ->
  (p.2 + 1) mod (cv_rows (c_cfg f) * cv_cols (c_cfg f) * cv_channels (c_cfg f)) <> 0 -> get h' p = get h p.
Proof.
  intros Hc Hm E Hp. unfold adapt_cl in E. rewrite Hc, Hm in E. revert E. dm. intros E. unfold adapt_scores in E. set (size2 := cv_rows (c_cfg f) * cv_cols (c_cfg f) * cv_channels (c_cfg f)) in *.
  destruct (for_loop _ _ _ _) as [r|] eqn:Er; [|done]. cbn in E. injection E as <-.
  enough (HH : forall n i0 (r0 r : R * R * heap), for_loop n i0 (fun i r => sw ← sqr w (c_at f) Scores i r.1.1; sg ← sqr r.2 (c_at f) Scores i r.1.2;
        if decide (i <> 0 /\ (i + 1) mod size2 = 0) then
          let ratio := (Rmax (R_sqrt.sqrt sw) eps / R_sqrt.sqrt sg)%R in
          h ← (if decide (thr < ratio)%R then mul (1 / ratio * thr) (c_at f) Scores i r.2 else Some r.2);
          Some (0%R, 0%R, h)
        else Some (sw, sg, r.2)) r0 = Some r -> get r.2 p = get r0.2 p) by exact (HH _ _ _ _ Er).
  clear Er r. induction n as [|n IH]; intros i0 r0 r; cbn [for_loop]; [intros [= <-]; done|].
  destruct (sqr w (c_at f) Scores i0 r0.1.1) as [sw|]; [|done]. cbn [mbind option_bind]. destruct (sqr r0.2 (c_at f) Scores i0 r0.1.2) as [sg|]; [|done]. cbn [mbind option_bind].
  destruct (decide (i0 <> 0 /\ (i0 + 1) mod size2 = 0)) as [[_ Hi]|_]; [|cbn [mbind option_bind]; intros H; by apply IH in H].
  cbn zeta. set (ratio := (Rmax (R_sqrt.sqrt sw) eps / R_sqrt.sqrt sg)%R). destruct (decide (thr < ratio)%R); [|cbn [mbind option_bind]; intros H; by apply IH in H].
  destruct (mul (1 / ratio * thr) (c_at f) Scores i0 r0.2) as [h1|] eqn:Em; [|intros H; discriminate]. cbn [mbind option_bind]. intros H. apply IH in H. rewrite H. cbn [snd].
  unfold mul in Em. destruct (rd (r0.2 (c_at f) Scores) i0) as [x|]; [|discriminate]. injection Em as <-. unfold get, hset.
  destruct (decide (p.1.1 = c_at f /\ p.1.2 = Scores)) as [[E1 E2]|]; [|done]. rewrite E1, E2. unfold el. rewrite !nth_lookup. rewrite list_lookup_insert_ne; [done|]. intros ->. done.
Qed.

(** * The hypotheses are met *)
Definition ex_w : heap := fun _ nm => match nm with Weights => [3; 4; 30; 40]%R | _ => [] end.
(** two units: the first gradient is 20 times as large as its weights, the second one a tenth of them *)
Definition ex_g : heap := fun _ nm => match nm with Weights => [60; 80; 3; 4]%R | _ => [] end.
Definition ex_m : model := Model [FN 0 (Fcl GRADIENT_DESCENT false false 2 2 None) 1 false] [] [].
Lemma ex_sqrt a b c : (0 <= c -> a * a + b * b = c * c -> R_sqrt.sqrt (a * a + (b * b + 0)) = c)%R.
Proof. intros Hc E. replace (a * a + (b * b + 0))%R with (c * c)%R by lra. by apply sqrt_square. Qed.
Example C53_example : no_conv_scores ex_m /\ NoDup (addrs ex_m) /\ units_allocated (model_units ex_m) ex_w ex_g /\
  (let u := Unit 0 Weights 0 2 in u ∈ model_units ex_m /\ (size_w ex_w (1 / 1000) u <= 1 / 2 * gnorm ex_g (unit_slots u))%R) /\
  (let u := Unit 0 Weights 2 2 in u ∈ model_units ex_m /\ (0 < gnorm ex_g (unit_slots u) <= 1 / 2 * size_w ex_w (1 / 1000) u)%R).
Proof.
  split; [apply list.Forall_nil; done|]. split; [apply (bool_decide_unpack _); vm_compute; done|]. split; [apply (bool_decide_unpack _); vm_compute; done|].
  assert (E1 : gnorm ex_w (unit_slots (Unit 0 Weights 0 2)) = 5%R) by (cbv -[Rplus Rmult IZR R_sqrt.sqrt]; apply ex_sqrt; lra).
  assert (E2 : gnorm ex_g (unit_slots (Unit 0 Weights 0 2)) = 100%R) by (cbv -[Rplus Rmult IZR R_sqrt.sqrt]; apply ex_sqrt; lra).
  assert (E3 : gnorm ex_w (unit_slots (Unit 0 Weights 2 2)) = 50%R) by (cbv -[Rplus Rmult IZR R_sqrt.sqrt]; apply ex_sqrt; lra).
  assert (E4 : gnorm ex_g (unit_slots (Unit 0 Weights 2 2)) = 5%R) by (cbv -[Rplus Rmult IZR R_sqrt.sqrt]; apply ex_sqrt; lra).
  split; (split; [cbn; rewrite !elem_of_cons; tauto|]); unfold size_w.
  - rewrite E1, E2, Rmax_left by lra. lra.
  - rewrite E3, E4, Rmax_left by lra. lra.
Qed.
Example C53_rmodel_example : let f := LN 0 (Lstm EDGE_POPUP 2 1) [] in
  let h : heap := fun _ nm => match nm with WScores _ => [1; 2]%R | UScores _ => [3]%R | _ => [] end in
  NoDup (map l_at [f]) /\ units_allocated (concat (map lstm_units [f])) h h /\ length (concat (map lstm_units [f])) = 8.
Proof. split_and!; apply (bool_decide_unpack _); vm_compute; done. Qed.
Example C53_conv_scores_example : let f := CN 0 (Cl EDGE_POPUP true 1 1 1 2 []) true in
  let h : heap := fun _ nm => match nm with Scores => [1; 2]%R | _ => [] end in
  exists h', adapt_cl h 0 1 f h = Some h' /\ get h' (0, Scores, 0) = 1%R.
Proof.
  intros f h. assert (E : exists h', adapt_cl h 0 1 f h = Some h').
  { unfold adapt_cl. cbn [c_cfg f cv_conv cv_mode]. dm. unfold adapt_scores. cbn [cv_kernels cv_rows cv_cols cv_channels c_cfg f Nat.mul Nat.add for_loop c_at]. unfold sqr. cbn [h rd lookup list_lookup mbind option_bind fst snd].
    rewrite decide_False by (intros [? _]; done). cbn [mbind option_bind fst snd h rd lookup list_lookup]. rewrite decide_True by done. cbn zeta. destruct (decide _); cbn; eauto. }
  destruct E as [h' E]. exists h'. split; [done|]. rewrite (C53_conv_scores_refuted h 0 1 f h h' (0, Scores, 0)); done.
Qed.

Print Assumptions C53_model_partial.
Print Assumptions C53_rmodel_partial.
Print Assumptions C53_large_gradients_untouched_refuted.
Print Assumptions C53_small_gradients_shrunk_refuted.
Print Assumptions C53_conv_scores_refuted.
