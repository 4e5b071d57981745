(** Proofs about the random and statistical helpers *)
From Verif Require Import NumLib BaseLemmas Grad Vae_Proofs Fn_Model Fn_Spec.
From Coq Require Import Reals Lia Lra.
Open Scope nat_scope.

Lemma factorised_root x : signed_root x (factorised x).
Proof.
  unfold signed_root, factorised. destruct (decide (x < 0)%R) as [H|H].
  - rewrite Rabs_mult, (Rabs_left (-1)), (Rabs_pos_eq (R_sqrt.sqrt (- x))) by (lra || apply sqrt_pos). pose proof (sqrt_sqrt (- x) ltac:(lra)). lra.
  - rewrite Rabs_mult, (Rabs_pos_eq 1), (Rabs_pos_eq (R_sqrt.sqrt x)) by (lra || apply sqrt_pos). pose proof (sqrt_sqrt x ltac:(lra)). lra.
Qed.
Lemma index_eq a b i j n : i < n -> j < n -> a * n + i = b * n + j -> a = b /\ i = j.
Proof. intros Hi Hj E. assert (a = b) by nia. subst. lia. Qed.
Lemma index_lt a b i n : a < b -> i < n -> a * n + i < n * b.
Proof. nia. Qed.

Definition column (output i : nat) : nat := if decide (i = 0) then 0 else output + i.
Lemma noise_ok g input output noise biases : 1 <= input -> length noise = input * output -> length biases = output ->
  ∃ c noise' biases', set_factorised_noise g input output noise biases = Some (c, noise', biases') /\ length noise' = length noise /\ length biases' = output /\
    (∀ j, j < output -> el biases' j = factorised (g (S j))) /\
    (∀ i j, i < input -> j < output -> el noise' (j * input + i) = (factorised (g (column output i)) * factorised (g (S j)))%R).
Proof.
  intros Hin Ln Lb. unfold set_factorised_noise.
  set (val := λ i j, (factorised (g (column output i)) * factorised (g (S j)))%R).
  match goal with |- context [for_loop input 0 ?body _] => destruct (for_loop_inv (λ i s, let '(c, noise', biases') := s in
     c = (if decide (i = 0) then 0 else output + i) /\ length noise' = length noise /\ length biases' = output /\
     (0 < i -> ∀ j, j < output -> el biases' j = factorised (g (S j))) /\
     (∀ i' j, i' < i -> j < output -> el noise' (j * input + i') = val i' j)) body input 0 (0, noise, biases)) as (s & E & H) end.
  - split; [done|]. split; [done|]. split; [done|]. split; lia.
  - intros i [[c noise1] biases1] Hi (Hc & L1 & L2 & Hb & Hv). cbn beta iota.
    match goal with |- context [for_loop output 0 ?body _] => destruct (for_loop_inv (λ j s, let '(c', noise', biases') := s in
     c' = (if decide (i = 0) then S j else output + S i) /\ length noise' = length noise /\ length biases' = output /\
     (∀ k, k < (if decide (i = 0) then j else output) -> el biases' k = factorised (g (S k))) /\
     (∀ i' j', i' < i -> j' < output -> el noise' (j' * input + i') = val i' j') /\ (∀ j', j' < j -> el noise' (j' * input + i) = val i j')) body output 0 (S c, noise1, biases1)) as (s & E & H) end.
    + split; [subst c; destruct (decide (i = 0)); lia|]. split; [done|]. split; [done|]. split; [|split; [done|lia]].
      destruct (decide (i = 0)); [lia|]. apply Hb. lia.
    + intros j [[c' noise2] biases2] Hj (Hc' & L3 & L4 & Hb2 & Hv2 & Hw2). cbn beta iota.
      assert (Hidx : j * input + i < length noise2) by (rewrite L3, Ln; apply index_lt; lia).
      assert (Hbias : ∃ b, (if decide (i = 0) then b ← wr biases2 j (factorised (g c')); Some (S c', b) else Some (c', biases2)) = Some ((if decide (i = 0) then S (S j) else output + S i), b) /\
        length b = output /\ ∀ k, k < (if decide (i = 0) then S j else output) -> el b k = factorised (g (S k))).
      { destruct (decide (i = 0)) as [E0|E0].
        - subst c'. rewrite wr_Some by lia. cbn [mbind option_bind]. eexists. split; [done|]. rewrite insert_length. split; [done|]. intros k Hk. rewrite el_upd by lia. destruct (decide (k = j)) as [->|]; [done|]. apply Hb2. lia.
        - subst c'. exists biases2. done. }
      destruct Hbias as (b & -> & Lb' & Hb'). cbn [mbind option_bind]. rewrite (rd_el b j) by lia. cbn [mbind option_bind]. rewrite wr_Some by done. cbn [mbind option_bind].
      eexists (_, _, _). split; [reflexivity|]. split; [destruct (decide (i = 0)); lia|]. rewrite insert_length. split; [done|]. split; [done|]. split; [done|].
      assert (Hy : el b j = factorised (g (S j))) by (apply Hb'; destruct (decide (i = 0)); lia).
      split.
      * intros i' j' Hi' Hj'. rewrite el_upd by done. destruct (decide (j' * input + i' = j * input + i)) as [Ee|]; [|by apply Hv2]. apply index_eq in Ee; lia.
      * intros j' Hj'. rewrite el_upd by done. destruct (decide (j' * input + i = j * input + i)) as [Ee|Ee].
        -- apply index_eq in Ee as [-> _]; [|lia|lia]. rewrite Hy. unfold val, column. subst c. done.
        -- apply Hw2. assert (j' <> j) by (intros ->; done). lia.
    + destruct s as [[c' noise2] biases2]. destruct H as (Hc' & L3 & L4 & Hb2 & Hv2 & Hw2). exists (c', noise2, biases2). split; [exact E|]. split; [subst c'; rewrite (decide_False (P := S i = 0)) by lia; destruct (decide (i = 0)); lia|].
      split; [done|]. split; [done|]. split.
      * intros _ j Hj. apply Hb2. destruct (decide (i = 0)); lia.
      * intros i' j Hi' Hj. destruct (decide (i' = i)) as [->|]; [by apply Hw2|]. apply Hv2; lia.
  - destruct s as [[c noise'] biases']. destruct H as (Hc & L1 & L2 & Hb & Hv). exists c, noise', biases'. split; [exact E|]. split; [done|]. split; [done|]. split; [apply Hb; lia|]. intros i j Hi Hj. by apply Hv.
Qed.

(** Dirichlet *)
Lemma dirichlet_gen M alpha n draws sample : length sample = n ->
  ∀ p, dirichlet_sample M alpha n draws sample = Some p -> length p = n /\ (1 <= n -> sumn n (el p) = 1%R).
Proof.
  intros Ls p. unfold dirichlet_sample.
  match goal with |- context [for_loop n 0 ?body (0%R, draws, sample)] => set (bd := body) end.
  assert (Hinv : ∀ m i s d l s' d' l', for_loop m i bd (s, d, l) = Some (s', d', l') -> length l = n -> i + m <= n -> length l' = n /\ (s = sumn i (el l) -> s' = sumn (i + m) (el l'))).
  { induction m as [|m IH]; intros i s d l s' d' l' Hf Hl Hi; cbn [for_loop] in Hf.
    - injection Hf as <- <- <-. rewrite Nat.add_0_r. done.
    - change (bd i (s, d, l)) with ('(x, draws) ← random_gamma M alpha d; sample ← wr l i x; Some (s + x, draws, sample)%R) in Hf. destruct (random_gamma M alpha d) as [[x d1]|]; cbn [mbind option_bind] in Hf; [|done]. rewrite wr_Some in Hf by lia. cbn [mbind option_bind] in Hf.
      apply IH in Hf as [H1 H2]; [|by rewrite insert_length|lia]. split; [done|]. intros ->. replace (i + S m) with (S i + m) by lia. apply H2. cbn [sumn]. rewrite el_upd_eq by lia. f_equal.
      apply sumn_ext. intros k Hk. by rewrite el_upd_ne by lia. }
  destruct (for_loop n 0 bd (0%R, draws, sample)) as [[[s d] l]|] eqn:E; cbn [mbind option_bind]; [|done].
  destruct (Hinv _ _ _ _ _ _ _ _ E Ls ltac:(lia)) as [Ll Hs]. specialize (Hs eq_refl). cbn [Nat.add] in Hs.
  destruct (decide (0 < n /\ s = 0%R)) as [|Hne]; [done|].
  destruct (loop_el 0 n (λ i l, x ← rd l i; wr l i (x / s)%R) (λ _ x, x / s)%R l) as (t & Et & Lt & Ht); [intros i l0 Hi Hl0; rewrite rd_el by lia; done|lia|].
  rewrite Et. intros [= <-]. split; [lia|]. intros Hn. assert (s <> 0%R) by (intros ->; apply Hne; split; [lia|done]).
  rewrite (sumn_ext n _ (λ i, el l i * / s)%R) by (intros i Hi; rewrite Ht, decide_True by lia; done). rewrite sumn_scal_r, <- Hs. field. done.
Qed.
Lemma gamma_scale M alpha draws : random_gamma M alpha draws = (λ '(x, d), (alpha * x, d)%R) <$> random_gamma M 1 draws.
Proof.
  induction draws as [|[a b] draws IH]; [done|]. cbn [random_gamma]. destruct (decide _); [done|]. destruct (decide _); [done|]. cbn. f_equal. f_equal. ring.
Qed.
Lemma dirichlet_scale M alpha n draws sample : alpha <> 0%R -> length sample = n -> dirichlet_sample M alpha n draws sample = dirichlet_sample M 1 n draws sample.
Proof.
  intros Ha Ls. unfold dirichlet_sample.
  set (bd := λ al i (s : R * list (Z * Z) * vec), let '(sum, draws, sample) := s in '(x, draws) ← random_gamma M al draws; sample ← wr sample i x; Some (sum + x, draws, sample)%R).
  assert (Hinv : ∀ m i s d l l1, length l = n -> length l1 = n -> i + m <= n -> (∀ k, k < i -> el l k = (alpha * el l1 k)%R) ->
    match for_loop m i (bd 1%R) (s, d, l1) with
    | Some (s', d', l1') => length l1' = n /\ ∃ l', for_loop m i (bd alpha) (alpha * s, d, l)%R = Some (alpha * s', d', l')%R /\ length l' = n /\ ∀ k, k < i + m -> el l' k = (alpha * el l1' k)%R
    | None => for_loop m i (bd alpha) (alpha * s, d, l)%R = None
    end).
  { induction m as [|m IH]; intros i s d l l1 Hl Hl1 Hi He; cbn [for_loop].
    - split; [done|]. exists l. split; [done|]. split; [done|]. rewrite Nat.add_0_r. done.
    - change (bd 1%R i (s, d, l1)) with ('(x, draws) ← random_gamma M 1 d; sample ← wr l1 i x; Some (s + x, draws, sample)%R).
      change (bd alpha i ((alpha * s)%R, d, l)) with ('(x, draws) ← random_gamma M alpha d; sample ← wr l i x; Some (alpha * s + x, draws, sample)%R). rewrite (gamma_scale M alpha d). destruct (random_gamma M 1 d) as [[x d1]|]; cbn [mbind option_bind fmap option_fmap option_map]; [|done].
      rewrite !wr_Some by lia. cbn [mbind option_bind].
      replace (alpha * s + alpha * x)%R with (alpha * (s + x))%R by ring. specialize (IH (S i) (s + x)%R d1 (<[i := (alpha * x)%R]> l) (<[i := x]> l1)). rewrite !insert_length in IH.
      replace (i + S m) with (S i + m) by lia. apply IH; [done|done|lia|]. intros k Hk. destruct (decide (k = i)) as [->|]; [rewrite !el_upd_eq by lia; done|]. rewrite !el_upd_ne by lia. apply He. lia. }
  specialize (Hinv n 0 0%R draws sample sample Ls Ls ltac:(lia) ltac:(lia)). rewrite Rmult_0_r in Hinv.
  change (for_loop n 0 _ (0%R, draws, sample)) with (for_loop n 0 (bd alpha) (0%R, draws, sample)) at 1.
  change (λ i '(sum, draws, sample), '(x, draws) ← random_gamma M 1 draws; sample ← wr sample i x; Some (sum + x, draws, sample)%R) with (bd 1%R).
  destruct (for_loop n 0 (bd 1%R) (0%R, draws, sample)) as [[[s1 d1] l1]|]; [|by rewrite Hinv].
  destruct Hinv as (L1 & l & -> & L & He). cbn [mbind option_bind].
  destruct (decide (0 < n /\ (alpha * s1)%R = 0%R)) as [[Hn Hz]|Hz].
  - rewrite decide_True; [done|]. split; [done|]. apply Rmult_integral in Hz as [|]; done.
  - destruct (decide (n = 0)) as [->|Hn0].
    { destruct (decide _); [lia|]. cbn. destruct l, l1; done. }
    assert (Hs1 : s1 <> 0%R). { intros ->. apply Hz. split; [lia|ring]. } rewrite decide_False by (intros [_ ?]; done).
    destruct (loop_el 0 n (λ i s, x ← rd s i; wr s i (x / (alpha * s1))%R) (λ _ x, x / (alpha * s1))%R l) as (t & Et & Lt & Ht); [intros i l0 Hi Hl0; rewrite rd_el by lia; done|lia|].
    destruct (loop_el 0 n (λ i s, x ← rd s i; wr s i (x / s1)%R) (λ _ x, x / s1)%R l1) as (t1 & Et1 & Lt1 & Ht1); [intros i l0 Hi Hl0; rewrite rd_el by lia; done|lia|].
    rewrite Et, Et1. f_equal. apply list_eq_el; [lia|]. intros i Hi. rewrite Ht, Ht1, !decide_True by lia. rewrite He by lia. field. done.
Qed.
(** draws with v1 = 1/2 and v1 = -1/2 *)
Definition size_half : R := (1 / 2 * R_sqrt.sqrt (-2 * ln (1 / 4) / (1 / 4)))%R.
Lemma size_half_pos : (0 < size_half)%R.
Proof.
  unfold size_half. apply Rmult_lt_0_compat; [lra|]. apply sqrt_lt_R0. assert (ln (1 / 4) < ln 1)%R by (apply ln_increasing; lra). rewrite ln_1 in *. lra.
Qed.
Lemma gamma_half q alpha draws s : (0 < q)%Z -> s = 1%Z \/ s = 3%Z ->
  random_gamma (4 * q - 1) alpha ((s * q, 2 * q)%Z :: draws) = Some ((if decide (s = 3%Z) then alpha * size_half else - (alpha * size_half))%R, draws).
Proof.
  intros Hq Hs. apply IZR_lt in Hq. cbn [random_gamma].
  assert (E1 : (IZR (4 * q - 1) + 1 = 4 * IZR q)%R) by (rewrite minus_IZR, mult_IZR; lra). rewrite E1, !mult_IZR.
  replace (2 * (2 * IZR q / (4 * IZR q)) - 1)%R with 0%R by (field; lra).
  assert (E2 : (2 * (IZR s * IZR q / (4 * IZR q)) - 1 = IZR s / 2 - 1)%R) by (field; lra). rewrite E2. clear E2.
  assert (E3 : ((IZR s / 2 - 1) * (IZR s / 2 - 1) + 0 * 0 = 1 / 4)%R) by (destruct Hs as [-> | ->]; lra). rewrite E3.
  rewrite decide_False by lra. rewrite decide_False by lra. f_equal. f_equal. unfold size_half.
  destruct Hs as [-> | ->]; [rewrite decide_False by done|rewrite decide_True by done].
  - replace (1 / 2 - 1)%R with (- (1 / 2))%R by lra. ring.
  - replace (3 / 2 - 1)%R with (1 / 2)%R by lra. ring.
Qed.
Lemma gamma_pm q alpha draws s : (0 < q)%Z -> s = 1%Z \/ s = 3%Z ->
  random_gamma (4 * q - 1) alpha ((s * q, 2 * q)%Z :: draws) = Some (alpha * size_half * (IZR s - 2), draws)%R.
Proof.
  intros Hq Hs. rewrite gamma_half by done. f_equal. f_equal. destruct Hs as [-> | ->]; [rewrite decide_False by done|rewrite decide_True by done]; lra.
Qed.
Lemma sumn_pm n (f : nat -> R) c : sumn n (λ i, c * f i)%R = (c * sumn n f)%R.
Proof. induction n; cbn; [lra|]. rewrite IHn. lra. Qed.
Lemma dirichlet_pm q alpha ss sample : (0 < q)%Z -> alpha <> 0%R -> Forall (λ s, s = 1%Z \/ s = 3%Z) ss -> length sample = length ss -> 0 < length ss ->
  let total := sumn (length ss) (λ i, (IZR (nth i ss 0%Z) - 2)%R) in
  dirichlet_sample (4 * q - 1) alpha (length ss) (map (λ s, (s * q, 2 * q)%Z) ss) sample =
    if decide (total = 0%R) then None else Some (map (λ s, (IZR s - 2) / total)%R ss).
Proof.
  intros Hq Ha Hss Ls Hn total. unfold dirichlet_sample. set (n := length ss) in *. set (c := (alpha * size_half)%R).
  assert (Hc : c <> 0%R). { unfold c. pose proof size_half_pos. apply Rmult_integral_contrapositive. split; [done|lra]. }
  match goal with |- context [for_loop n 0 ?body (0%R, _, _)] => destruct (for_loop_inv (λ i st, let '(s, d, l) := st in
     s = sumn i (λ k, c * (IZR (nth k ss 0%Z) - 2))%R /\ d = drop i (map (λ s, (s * q, 2 * q)%Z) ss) /\ length l = n /\ ∀ k, k < i -> el l k = (c * (IZR (nth k ss 0%Z) - 2))%R)
     body n 0 (0%R, map (λ s, (s * q, 2 * q)%Z) ss, sample)) as ([[s d] l] & E & Hs & Hd & Ll & He) end.
  - split; [done|]. split; [done|]. split; [done|lia].
  - intros i [[s d] l] Hi (Hs & Hd & Ll & He). cbn beta iota.
    destruct (lookup_lt_is_Some_2 ss i) as [z Hz]; [lia|].
    assert (Hd' : d = (z * q, 2 * q)%Z :: drop (S i) (map (λ s, (s * q, 2 * q)%Z) ss)). { rewrite Hd. apply drop_S. change (((λ s, (s * q, 2 * q)%Z) <$> ss) !! i = Some (z * q, 2 * q)%Z). by rewrite list_lookup_fmap, Hz. }
    assert (Hnz : nth i ss 0%Z = z) by (by apply nth_lookup_Some with (d := 0%Z) in Hz).
    rewrite Hd'. rewrite gamma_pm; [|done|]. 2: { rewrite list.Forall_lookup in Hss. by eapply Hss. }
    cbn [mbind option_bind]. rewrite wr_Some by lia. cbn [mbind option_bind]. eexists (_, _, _). split; [reflexivity|].
    split; [cbn [sumn]; rewrite Hnz, Hs; reflexivity|]. split; [done|]. rewrite insert_length. split; [done|]. intros k Hk. rewrite el_upd by lia. destruct (decide (k = i)) as [->|]; [by rewrite Hnz|]. apply He. lia.
  - rewrite E. cbn [mbind option_bind]. cbn [Nat.add] in *. rewrite sumn_pm in Hs. fold total in Hs.
    destruct (decide (total = 0%R)) as [Ez|Ez].
    + rewrite decide_True; [done|]. split; [done|]. rewrite Hs, Ez. ring.
    + assert (s <> 0%R). { rewrite Hs. by apply Rmult_integral_contrapositive. } rewrite decide_False by (intros [_ ?]; done).
      destruct (loop_el 0 n (λ i l, x ← rd l i; wr l i (x / s)%R) (λ _ x, x / s)%R l) as (t & Et & Lt & Ht); [intros i l0 Hi Hl0; rewrite rd_el by lia; done|lia|].
      rewrite Et. f_equal. apply list_eq_el; [rewrite map_length; lia|]. intros i Hi. rewrite Ht, decide_True by lia. rewrite He by lia.
      assert (Hi' : i < length ss) by lia. destruct (lookup_lt_is_Some_2 ss i Hi') as [z Hz]. rewrite (el_lookup (map _ ss) i ((IZR z - 2) / total)%R).
      2: { change (((λ s, (IZR s - 2) / total)%R <$> ss) !! i = Some ((IZR z - 2) / total)%R). by rewrite list_lookup_fmap, Hz. }
      apply nth_lookup_Some with (d := 0%Z) in Hz. rewrite Hz, Hs. field. done.
Qed.
Lemma sumn_const_from n : sumn (S n) (λ i, (IZR (nth i (1 :: repeat 3 n)%Z 0%Z) - 2)%R) = (INR n - 1)%R.
Proof.
  assert (H : ∀ m, m <= n -> sumn (S m) (λ i, (IZR (nth i (1 :: repeat 3 n)%Z 0%Z) - 2)%R) = (INR m - 1)%R).
  { induction m as [|m IH]; intros Hm; [cbn; lra|]. change (sumn (S (S m)) ?f) with (sumn (S m) f + f (S m))%R. rewrite IH by lia. cbn [nth]. rewrite S_INR.
    replace (nth m (repeat 3 n)%Z 0%Z) with 3%Z; [lra|]. symmetry. apply repeat_spec with (n := n). apply nth_In. rewrite repeat_length. lia. }
  by apply H.
Qed.

(** decoding, mean, deviation *)
Lemma mul_ok v offset n : n <= length v -> mul_array_values_by_indices v offset n = Some (sumn n (λ i, INR i * el v i + offset)%R).
Proof. intros Hl. unfold mul_array_values_by_indices. rewrite (for_loop_sum n _ (λ i, INR i * el v i + offset)%R); [f_equal; ring|]. intros i Hi. rewrite rd_el by lia. done. Qed.
Lemma sum_const n c : sumn n (λ _, c) = (INR n * c)%R.
Proof. induction n; [cbn; lra|]. cbn [sumn]. rewrite IHn, S_INR. lra. Qed.
Lemma mul_expected v offset n : n <= length v -> sumn n (el v) = 1%R -> mul_array_values_by_indices v offset n = Some (expected n offset v + (INR n - 1) * offset)%R.
Proof.
  intros Hl Hs. rewrite mul_ok by done. f_equal. unfold expected.
  rewrite (sumn_ext n (λ i, el v i * (INR i + offset))%R (λ i, INR i * el v i + el v i * offset)%R) by (intros; ring). rewrite !sumn_plus, sum_const, sumn_scal_r, Hs. lra.
Qed.
Lemma mean_ok v n : n <= length v -> mean v n = Some (average n v).
Proof. intros Hl. unfold mean, average. rewrite (for_loop_sum n _ (el v)); [cbn; f_equal; f_equal; ring|]. intros i Hi. by rewrite rd_el by lia. Qed.
Lemma std_ok v n : 0 < n -> n <= length v -> std v (average n v) n = Some (standard_deviation n v * standard_deviation n v)%R.
Proof.
  intros Hn Hl. unfold std, standard_deviation. rewrite (for_loop_sum n _ (λ i, (el v i - average n v) * (el v i - average n v))%R).
  - cbn. f_equal. rewrite Rplus_0_l. rewrite sqrt_sqrt; [done|]. unfold Rdiv. apply Rmult_le_pos; [|left; apply Rinv_0_lt_compat, lt_0_INR; lia].
    generalize (average n v). intros a. clear. induction n; cbn [sumn]; [lra|]. pose proof (Rle_0_sqr (el v n - a)). unfold Rsqr in *. lra.
  - intros i Hi. rewrite rd_el by lia. cbn. f_equal. rewrite <- Rabs_mult. apply Rabs_pos_eq. pose proof (Rle_0_sqr (el v i - average n v)). done.
Qed.

Lemma gamma_polar M alpha draws x rest : random_gamma M alpha draws = Some (x, rest) ->
  ∃ rejected d, draws = rejected ++ d :: rest /\ Forall (λ r, 1 <= radius2 (square_point M r))%R rejected /\ (0 < radius2 (square_point M d) < 1)%R /\
    x = (alpha * polar_normal (square_point M d))%R.
Proof.
  induction draws as [|[a b] draws IH]; cbn [random_gamma]; [done|]. destruct (decide (1 <= _)%R) as [H|H].
  - intros E. destruct (IH E) as (rejected & d & -> & Hr & Hd & Hx). exists ((a, b) :: rejected), d. split; [done|]. split; [|done]. apply list.Forall_cons. split; [exact H|done].
  - destruct (decide (_ = 0)%R) as [H0|H0]; [done|]. intros [= <- <-]. exists [], (a, b). split; [done|]. split; [done|]. split; [|done].
    unfold radius2, square_point. cbn [fst snd] in *. split; [|lra]. match goal with |- (0 < ?u * ?u + ?v * ?v)%R => pose proof (Rle_0_sqr u); pose proof (Rle_0_sqr v); unfold Rsqr in *; lra end.
Qed.
