(** C76: exploration noise, Dirichlet sample, decoding of a categorical prediction, mean and deviation *)
From Verif Require Import NumLib BaseLemmas Fn_Model Fn_Spec Fn_Proofs.
From Coq Require Import Reals Lia Lra.
Open Scope nat_scope.

(** The factorised noise of a layer with at least one input: the weight noise is an outer product of one signed root per input and one
    per output, the bias noise is the signed root per output, and all of them are roots of different normal values.  *)
Theorem C76_factorised_noise : ∀ g input output noise biases, 1 <= input -> length noise = input * output -> length biases = output ->
  ∃ c noise' biases' (xs : nat -> nat), set_factorised_noise g input output noise biases = Some (c, noise', biases') /\
    length noise' = length noise /\ length biases' = length biases /\
    (∀ j, j < output -> signed_root (g (1 + j)) (el biases' j)) /\
    (∀ i, i < input -> ∃ r, signed_root (g (xs i)) r /\ ∀ j, j < output -> el noise' (j * input + i) = (r * el biases' j)%R) /\
    (∀ i i', i < input -> i' < input -> xs i = xs i' -> i = i') /\ (∀ i j, i < input -> j < output -> xs i <> 1 + j).
Proof.
  intros g input output noise biases Hin Ln Lb. destruct (noise_ok g input output noise biases Hin Ln Lb) as (c & noise' & biases' & E & L1 & L2 & Hb & Hv).
  exists c, noise', biases', (column output). split; [exact E|]. split; [done|]. split; [lia|]. split; [intros j Hj; rewrite Hb by done; apply factorised_root|].
  split; [|split].
  - intros i Hi. exists (factorised (g (column output i))). split; [apply factorised_root|]. intros j Hj. rewrite Hv, Hb by done. done.
  - intros i i' _ _. unfold column. destruct (decide (i = 0)), (decide (i' = 0)); lia.
  - intros i j Hi Hj. unfold column. destruct (decide (i = 0)); lia.
Qed.
Print Assumptions C76_factorised_noise.
Example C76_factorised_noise_case : ∃ c noise biases, set_factorised_noise INR 2 2 (repeat 0%R 4) (repeat 0%R 2) = Some (c, noise, biases) /\ el biases 0 = 1%R.
Proof.
  destruct (noise_ok INR 2 2 (repeat 0%R 4) (repeat 0%R 2) ltac:(lia) eq_refl eq_refl) as (c & noise & biases & E & _ & _ & Hb & _). exists c, noise, biases. split; [exact E|]. rewrite Hb by lia.
  unfold factorised. cbn [INR]. rewrite decide_False by lra. rewrite sqrt_1. lra.
Qed.

(** The signed root is unique: noise of a given size and sign *)
Theorem C76_signed_root_unique : ∀ x y y', signed_root x y -> signed_root x y' -> y = y'.
Proof.
  unfold signed_root. intros x y y' H H'. unfold Rabs in *. destruct (Rcase_abs y), (Rcase_abs y'); nra.
Qed.
Print Assumptions C76_signed_root_unique.

(** What the Dirichlet sample is made of: random_gamma rejects the points outside the open disc and returns alpha times the polar
    method's normal value of the first other point, whatever alpha is (a gamma value would not be negative). *)
Theorem C76_gamma_is_a_scaled_normal : ∀ M alpha draws x rest, random_gamma M alpha draws = Some (x, rest) ->
  ∃ rejected d, draws = rejected ++ d :: rest /\ Forall (λ r, 1 <= radius2 (square_point M r))%R rejected /\ (0 < radius2 (square_point M d) < 1)%R /\
    x = (alpha * polar_normal (square_point M d))%R.
Proof. apply gamma_polar. Qed.
Print Assumptions C76_gamma_is_a_scaled_normal.
Example C76_gamma_case : ∀ q rest, (0 < q)%Z -> ∃ x, random_gamma (4 * q - 1) 1 ((q, 2 * q)%Z :: rest) = Some (x, rest) /\ (x < 0)%R.
Proof.
  intros q rest Hq. exists (1 * size_half * (IZR 1 - 2))%R. split; [rewrite <- gamma_pm with (q := q) by lia; by rewrite Z.mul_1_l|]. pose proof size_half_pos. lra.
Qed.

(** A finished Dirichlet sample of at least one entry has entries adding up to 1. *)
Theorem C76_dirichlet_sums_to_one_partial : ∀ M alpha n draws sample p, length sample = n -> 1 <= n ->
  dirichlet_sample M alpha n draws sample = Some p -> length p = n /\ sumn n (el p) = 1%R.
Proof. intros M alpha n draws sample p Ls Hn E. destruct (dirichlet_gen M alpha n draws sample Ls p E) as [H1 H2]. split; [done|]. by apply H2. Qed.
Print Assumptions C76_dirichlet_sums_to_one_partial.

(** Refuted: the concentration has no effect at all on the sample (for the same values of rand()). *)
Theorem C76_dirichlet_alpha_refuted : ∀ M alpha alpha' n draws sample, alpha <> 0%R -> alpha' <> 0%R -> length sample = n ->
  dirichlet_sample M alpha n draws sample = dirichlet_sample M alpha' n draws sample.
Proof. intros. rewrite (dirichlet_scale M alpha), (dirichlet_scale M alpha') by done. done. Qed.
Print Assumptions C76_dirichlet_alpha_refuted.

(** Refuted: a sample of three or more entries need not be a distribution.  For every such size and every generator with four dividing
    RAND_MAX + 1, rand() may return values with which the sample has an entry below 0 (and for three entries it is (-1, 1, 1)). *)
Theorem C76_dirichlet_negative_refuted : ∀ q alpha n sample, (0 < q)%Z -> alpha <> 0%R -> 3 <= n -> length sample = n ->
  ∃ draws p, Forall (λ d, (0 <= d.1 <= 4 * q - 1 /\ 0 <= d.2 <= 4 * q - 1)%Z) draws /\ dirichlet_sample (4 * q - 1) alpha n draws sample = Some p /\
    el p 0 = (- (1 / (INR n - 2)))%R /\ (∀ i, 1 <= i < n -> el p i = (1 / (INR n - 2))%R) /\ ~ simplex n p.
Proof.
  intros q alpha n sample Hq Ha Hn Ls. destruct n as [|n]; [lia|]. set (ss := (1 :: repeat 3 n)%Z). assert (Lss : length ss = S n) by (unfold ss; cbn; by rewrite repeat_length).
  assert (Hall : Forall (λ s, s = 1%Z \/ s = 3%Z) ss).
  { apply list.Forall_cons. split; [by left|]. apply list.Forall_forall. intros x Hx. right. apply elem_of_list_In, repeat_spec in Hx. done. }
  pose proof (dirichlet_pm q alpha ss sample Hq Ha Hall ltac:(lia) ltac:(lia)) as E. cbn zeta in E. rewrite Lss in E. assert (Ht : sumn (S n) (λ i, (IZR (nth i ss 0%Z) - 2)%R) = (INR n - 1)%R) by apply sumn_const_from. rewrite Ht in E.
  assert (Hge : (2 <= INR n)%R) by (change 2%R with (INR 2); apply le_INR; lia). rewrite decide_False in E by lra.
  exists (map (λ s, (s * q, 2 * q)%Z) ss), (map (λ s, (IZR s - 2) / (INR n - 1))%R ss).
  assert (E0 : el (map (λ s, (IZR s - 2) / (INR n - 1))%R ss) 0 = (- (1 / (INR (S n) - 2)))%R).
  { unfold ss. cbn [map]. rewrite (el_lookup _ 0 ((IZR 1 - 2) / (INR n - 1))%R) by done. rewrite S_INR. field. lra. }
  split; [|split; [exact E|split; [exact E0|split]]].
  - apply list.Forall_fmap. eapply list.Forall_impl; [exact Hall|]. intros s Hs. cbn. destruct Hs as [-> | ->]; lia.
  - intros i Hi. destruct i as [|i]; [lia|]. rewrite (el_lookup _ (S i) ((IZR 3 - 2) / (INR n - 1))%R); [rewrite S_INR; field; lra|].
    change (((λ s, (IZR s - 2) / (INR n - 1))%R <$> ss) !! S i = Some ((IZR 3 - 2) / (INR n - 1))%R). rewrite list_lookup_fmap. change (ss !! S i) with (repeat 3%Z n !! i).
    replace (repeat 3%Z n !! i) with (Some 3%Z); [done|]. destruct (lookup_lt_is_Some_2 (repeat 3%Z n) i) as [z Hz]; [rewrite repeat_length; lia|]. rewrite Hz. apply elem_of_list_lookup_2, elem_of_list_In, repeat_spec in Hz. by subst z.
  - intros (_ & H & _). specialize (H 0 ltac:(lia)). rewrite E0, S_INR in H. assert (0 < 1 / (INR n + 1 - 2))%R by (apply Rdiv_lt_0_compat; lra). lra.
Qed.
Print Assumptions C76_dirichlet_negative_refuted.
Example C76_dirichlet_glibc : (4 * 2 ^ 29 - 1 = 2147483647)%Z. Proof. reflexivity. Qed.

(** Refuted: there need not be any sample.  With two entries rand() may return values whose sum is 0, and the division gives no number;
    and a single draw from the middle of the square gives 0 times infinity. *)
Theorem C76_dirichlet_nan_refuted : ∀ q alpha sample, (0 < q)%Z -> alpha <> 0%R -> length sample = 2 ->
  dirichlet_sample (4 * q - 1) alpha 2 [(q, 2 * q)%Z; (3 * q, 2 * q)%Z] sample = None /\
  ∀ draws, random_gamma (4 * q - 1) alpha ((2 * q, 2 * q)%Z :: draws) = None.
Proof.
  intros q alpha sample Hq Ha Ls. split.
  - assert (Hall : Forall (λ s, s = 1%Z \/ s = 3%Z) [1; 3]%Z) by (repeat constructor; lia).
    pose proof (dirichlet_pm q alpha [1; 3]%Z sample Hq Ha Hall Ls ltac:(cbn; lia)) as E. cbn zeta in E. rewrite decide_True in E by (cbn; lra).
    cbn [map length] in E. rewrite Z.mul_1_l in E. exact E.
  - intros draws. apply IZR_lt in Hq. cbn [random_gamma]. rewrite minus_IZR, !mult_IZR.
    replace (2 * (2 * IZR q / (4 * IZR q - 1 + 1)) - 1)%R with 0%R by (field; lra). rewrite decide_False by lra. rewrite decide_True by lra. done.
Qed.
Print Assumptions C76_dirichlet_nan_refuted.

(** The value decoded from a categorical prediction is the expected value over the values offset, offset+1, ... plus (n-1) times the
    offset.  So it is the expected value exactly for a single class or offset 0 (refuted otherwise). *)
Theorem C76_decoded_value : ∀ v offset n, n <= length v -> sumn n (el v) = 1%R ->
  mul_array_values_by_indices v offset n = Some (expected n offset v + (INR n - 1) * offset)%R.
Proof. apply mul_expected. Qed.
Print Assumptions C76_decoded_value.
Theorem C76_decoded_value_refuted : ∀ v offset n, n <= length v -> sumn n (el v) = 1%R ->
  (mul_array_values_by_indices v offset n = Some (expected n offset v) <-> n = 1 \/ offset = 0%R).
Proof.
  intros v offset n Hl Hs. rewrite mul_expected by done. split.
  - intros [= H]. assert (Hz : ((INR n - 1) * offset = 0)%R) by lra. apply Rmult_integral in Hz as [Hz|Hz]; [|by right]. left. apply INR_eq. cbn. lra.
  - intros [-> | ->]; f_equal; cbn; lra.
Qed.
Print Assumptions C76_decoded_value_refuted.
Example C76_decoded_value_case : mul_array_values_by_indices [1/2; 1/4; 1/4]%R (-1)%R 3 = Some (-9/4)%R /\ expected 3 (-1)%R [1/2; 1/4; 1/4]%R = (-1/4)%R.
Proof. split; [rewrite mul_ok by (cbn; lia); f_equal; cbn; lra|]. unfold expected. cbn. lra. Qed.

(** mean is the average; std given that average is the SQUARE of the standard deviation, so it is the standard deviation only when
    that is 0 or 1. *)
Theorem C76_mean : ∀ v n, 1 <= n <= length v -> mean v n = Some (average n v).
Proof. intros v n H. apply mean_ok. lia. Qed.
Print Assumptions C76_mean.
Theorem C76_std_refuted : ∀ v n, 1 <= n <= length v ->
  std v (average n v) n = Some (standard_deviation n v * standard_deviation n v)%R /\
  (std v (average n v) n = Some (standard_deviation n v) <-> standard_deviation n v = 0%R \/ standard_deviation n v = 1%R).
Proof.
  intros v n H. rewrite std_ok by lia. split; [done|]. split.
  - intros [= E]. assert (Hz : (standard_deviation n v * (standard_deviation n v - 1) = 0)%R) by lra. apply Rmult_integral in Hz as [|]; [by left|right; lra].
  - intros [-> | ->]; f_equal; lra.
Qed.
Print Assumptions C76_std_refuted.
Example C76_std_case : std [0; 4]%R 2%R 2 = Some 4%R /\ average 2 [0; 4]%R = 2%R /\ standard_deviation 2 [0; 4]%R = 2%R.
Proof.
  assert (Ha : average 2 [0; 4]%R = 2%R) by (unfold average; cbn; lra).
  assert (Hs : standard_deviation 2 [0; 4]%R = 2%R).
  { unfold standard_deviation. rewrite Ha. cbn. replace ((0 + (0 - 2) * (0 - 2) + (4 - 2) * (4 - 2)) / (1 + 1))%R with (2 * 2)%R by lra. apply sqrt_square. lra. }
  split; [|done]. rewrite <- Ha at 1. rewrite std_ok by (cbn; lia). f_equal. rewrite Hs. lra.
Qed.
