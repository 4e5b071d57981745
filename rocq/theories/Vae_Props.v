(** C72: variational autoencoder: one pass forth and back, and what is minimised *)
From Verif Require Import NumLib Deriv Grad Vae_Model Vae_Spec Vae_Proofs.
From Coq Require Import Reals Lia Lra.
Open Scope nat_scope.

Section props.
  Context {Ge Gd : Type} (enc dec : vec -> vec) (enc_bp : vec -> vec -> vec * Ge) (dec_bp : vec -> vec -> vec * Gd).

  (** Forth: the decoder gets mean + std * noise, number by number. *)
  Theorem vae_forward xi input v : sized v -> length (enc input) = latent v * 2 ->
    ∃ v', vae_ff enc dec xi input v = Some (v', enc input, dec (vz v')) /\ sized v' /\ latent v' = latent v /\
      veps v' = map xi (seq 0 (latent v)) /\ vz v' = latent_of (latent v) (veps v') (enc input) /\ dmean v' = dmean v /\ dstd v' = dstd v.
  Proof.
    intros (Lz & Le & Lm & Ls) Ly. unfold vae_ff. set (n := latent v) in *. set (y := enc input) in *.
    destruct (loop_el 0 n (λ i l, wr l i (xi i)) (λ i _, xi i) (veps v)) as (eps & E1 & L1 & H1); [done|lia|]. rewrite E1. cbn [mbind option_bind].
    destruct (map2_into_el Rmult eps 0 y n 0 n (vz v)) as (z1 & E2 & L2 & H2); [lia..|]. rewrite E2. cbn [mbind option_bind].
    destruct (map2_in_place_el Rplus y 0 0 n z1) as (z2 & E3 & L3 & H3); [lia..|]. rewrite E3. cbn [mbind option_bind].
    exists (mkVae n z2 eps (dmean v) (dstd v)). split; [done|]. cbn [vz veps dmean dstd latent]. split; [split_and!; cbn; lia|]. split; [done|]. split.
    { apply list_eq_el; [rewrite map_length, seq_length; lia|]. intros i Hi. rewrite H1, el_map_seq by lia. rewrite decide_True by lia. by rewrite Nat.sub_0_r. }
    split; [|done]. apply list_eq_el; [rewrite latent_of_length; lia|]. intros i Hi. rewrite el_latent_of by lia. rewrite H3, H2, !decide_True by lia. cbn [Nat.add]. rewrite Nat.sub_0_r. unfold mean, std. lra.
  Qed.

  (** Back: the decoder gets the error as it is; the encoder gets, for its means, twice the error the decoder passes back plus 2 mean,
      and for its stds twice that error times the noise plus 2 std - 1/std. *)
  Theorem vae_backward input error y v temp gd : sized v -> length y = latent v * 2 -> dec_bp (vz v) error = (temp, gd) -> latent v <= length temp ->
    ∃ v' e, vae_bp enc_bp dec_bp input error y v = Some (v', gd, e, enc_bp input e) /\ length e = latent v * 2 /\
      vz v' = vz v /\ veps v' = veps v /\ sized v' /\
      ∀ k, k < latent v ->
        el e k = (2 * el temp k + 2 * mean y k)%R /\
        el e (latent v + k) = (2 * (el temp k * el (veps v) k) + (2 * std (latent v) y k - 1 / std (latent v) y k))%R.
  Proof.
    intros (Lz & Le & Lm & Ls) Ly Hd Ht. unfold vae_bp. rewrite Hd. set (n := latent v) in *.
    destruct (copy_into_el temp n (dmean v)) as (dm & E1 & L1 & H1); [lia..|]. rewrite E1. cbn [mbind option_bind].
    destruct (map2_into_el Rmult temp 0 (veps v) 0 0 n (dstd v)) as (ds & E2 & L2 & H2); [lia..|]. rewrite E2. cbn [mbind option_bind].
    destruct (regularise_el y v ds dm) as (ds' & dm' & E3 & L3 & L4 & H3 & H4); [subst n; lia..|]. rewrite E3. cbn [mbind option_bind fst snd]. fold n in H3, H4.
    destruct (map2_into_el Rplus dm' 0 temp 0 0 n (replicate (n * 2) 0%R)) as (t1 & E4 & L5 & H5); [lia|lia|rewrite replicate_length; lia|]. rewrite E4. cbn [mbind option_bind]. rewrite replicate_length in L5.
    destruct (map2_into_el Rmult temp 0 (veps v) 0 n n t1) as (t2 & E5 & L6 & H6); [lia..|]. rewrite E5. cbn [mbind option_bind].
    destruct (map2_in_place_el Rplus ds' 0 n n t2) as (t3 & E6 & L7 & H7); [lia..|]. rewrite E6. cbn [mbind option_bind].
    eexists _, t3. split; [done|]. split; [lia|]. split; [done|]. split; [done|]. split; [split_and!; cbn; lia|].
    intros k Hk. split.
    - rewrite H7, H6, H5. rewrite !(decide_False (P := n <= k < n + n)) by lia. rewrite decide_True by lia. cbn [Nat.add]. rewrite Nat.sub_0_r.
      rewrite H4 by done. rewrite H1, decide_True by done. lra.
    - rewrite H7, H6. rewrite !(decide_True (P := n <= n + k < n + n)) by lia. cbn [Nat.add]. replace (n + k - n) with k by lia.
      rewrite H3 by done. rewrite H2, decide_True by lia. cbn [Nat.add]. rewrite Nat.sub_0_r. lra.
  Qed.

  (** So, if what the decoder passes back is the gradient of its loss, the error given to the encoder is the exact gradient, in the outputs of the
      encoder, of twice the loss plus sum (mean^2 + std^2 - ln |std|). *)
  Theorem vae_gradient_of_code_objective L input error y v temp gd : sized v -> length y = latent v * 2 -> vz v = latent_of (latent v) (veps v) y ->
    dec_bp (vz v) error = (temp, gd) -> latent v <= length temp ->
    (∀ k, k < latent v -> has_partial L (vz v) k (el temp k)) -> (∀ k, k < latent v -> std (latent v) y k <> 0%R) ->
    ∃ v' e, vae_bp enc_bp dec_bp input error y v = Some (v', gd, e, enc_bp input e) /\ length e = latent v * 2 /\
      ∀ k, k < latent v * 2 -> has_partial (code_objective L (latent v) (veps v)) y k (el e k).
  Proof.
    intros Hv Ly Hz Hd Ht HL Hs. destruct (vae_backward input error y v temp gd Hv Ly Hd Ht) as (v' & e & E & Le & _ & _ & _ & He).
    exists v', e. split; [done|]. split; [done|]. intros k Hk. set (n := latent v) in *.
    assert (HO : ∀ y, code_objective L n (veps v) y = (2 * L (latent_of n (veps v) y) + sumn n (λ k, mean y k * mean y k + std n y k * std n y k - 0 - / 2 * ln (std n y k * std n y k)))%R).
    { intros y'. unfold code_objective. f_equal. apply sumn_ext. intros i Hi. lra. }
    destruct (decide (k < n)) as [Hkn|Hkn].
    - destruct (He k Hkn) as [-> _]. unfold has_partial. eapply dlim_ext; [intros t; apply HO|]. apply dlim_plus; [apply dlim_scal|].
      + apply loss_mean; [done|done|]. rewrite <- Hz. by apply HL.
      + by apply terms_mean.
    - replace k with (n + (k - n)) by lia. set (j := k - n). assert (Hj : j < n) by lia. destruct (He j Hj) as [_ ->]. unfold has_partial. eapply dlim_ext; [intros t; apply HO|].
      apply dlim_plus; [apply dlim_scal|].
      + apply loss_std; [done|done|]. rewrite <- Hz. by apply HL.
      + eapply dlim_val; [|apply (terms_std n y j (/ 2) 0); [done|done|by apply Hs]]. field. by apply Hs.
  Qed.

  (** It is not the gradient of any combination of the loss and the Kullback-Leibler divergence from the standard normal distribution: where the
      divergence is minimal (mean 0, std 1 or -1) and the loss does not pull, every such gradient is 0, and the error given to the encoder is not. *)
  Theorem vae_divergence_refuted L input error y v temp gd k a b d : sized v -> length y = latent v * 2 -> vz v = latent_of (latent v) (veps v) y ->
    dec_bp (vz v) error = (temp, gd) -> latent v <= length temp ->
    k < latent v -> has_partial L (vz v) k (el temp k) -> el temp k = 0%R -> (std (latent v) y k = 1 \/ std (latent v) y k = -1)%R ->
    has_partial (objective a b L (latent v) (veps v)) y (latent v + k) d ->
    d = 0%R /\ ∃ v' e, vae_bp enc_bp dec_bp input error y v = Some (v', gd, e, enc_bp input e) /\ el e (latent v + k) <> 0%R.
  Proof.
    intros Hv Ly Hz Hd Ht Hk HL H0 Hs Ho. destruct (vae_backward input error y v temp gd Hv Ly Hd Ht) as (v' & e & E & Le & _ & _ & _ & He).
    set (n := latent v) in *. split.
    - eapply dlim_unique; [exact Ho|]. unfold has_partial, objective, kl. eapply dlim_ext.
      { intros t. apply (f_equal (λ x, a * _ + b * (/ 2 * x))%R). apply sumn_ext. intros i _. rewrite <- (Rmult_1_l (ln _)). reflexivity. }
      eapply dlim_val; [|apply dlim_plus; [apply dlim_scal, loss_std; [done|done|rewrite <- Hz; exact HL]|apply dlim_scal, dlim_scal, (terms_std n y k 1 1); [done|done|lra]]].
      rewrite H0. destruct Hs as [->| ->]; field.
    - exists v', e. split; [done|]. destruct (He k Hk) as [_ ->]. rewrite H0. destruct Hs as [->| ->]; lra.
  Qed.

  (** Where the loss does not pull, the encoder is at rest exactly for mean 0 and variance 1/2, not for the standard normal distribution. *)
  Theorem vae_rests_at_variance_one_half input error y v temp gd : sized v -> length y = latent v * 2 -> dec_bp (vz v) error = (temp, gd) -> latent v <= length temp ->
    ∃ v' e, vae_bp enc_bp dec_bp input error y v = Some (v', gd, e, enc_bp input e) /\
      ∀ k, k < latent v -> el temp k = 0%R -> std (latent v) y k <> 0%R ->
        (el e k = 0%R <-> mean y k = 0%R) /\ (el e (latent v + k) = 0%R <-> (std (latent v) y k * std (latent v) y k = / 2)%R).
  Proof.
    intros Hv Ly Hd Ht. destruct (vae_backward input error y v temp gd Hv Ly Hd Ht) as (v' & e & E & Le & _ & _ & _ & He).
    exists v', e. split; [done|]. intros k Hk H0 Hs. destruct (He k Hk) as [-> ->]. rewrite H0. set (s := std _ y k) in *. split; [split; lra|].
    assert (Hx : (2 * (0 * el (veps v) k) + (2 * s - 1 / s))%R = ((2 * (s * s) - 1) / s)%R) by (field; done). rewrite Hx. split.
    - intros Hq. assert ((2 * (s * s) - 1) / s * s = 0)%R as Hr by (rewrite Hq; lra). replace ((2 * (s * s) - 1) / s * s)%R with (2 * (s * s) - 1)%R in Hr by (field; done). lra.
    - intros ->. field. done.
  Qed.
End props.

(** ** freeing *)
(** Freeing NULL is undefined although it is tested for, *)
Theorem vae_free_null_refuted : free_vae None = None.
Proof. done. Qed.
(** and freeing a vaemodel never frees its latent vector: exactly this block leaks. *)
Theorem vae_free_leaks_the_latent_vector_refuted : ∃ freed, free_vae (Some vae_blocks) = Some freed /\ NoDup freed /\ ∀ b, b ∈ vae_blocks -> (b ∈ freed <-> b <> BZ).
Proof.
  exists [BInput; BDmean; BDstd; BEncoder; BDecoder; BStruct]. split; [reflexivity|]. split.
  - repeat (apply list.NoDup_cons; split; [rewrite ?elem_of_cons, elem_of_nil; intros H; repeat destruct H as [H|H]; done|]). by apply list.NoDup_nil.
  - intros b _. rewrite !elem_of_cons, elem_of_nil. destruct b; split; try done; try tauto. intros H. repeat destruct H as [H|H]; done.
Qed.

(** ** a concrete autoencoder with one latent number: the encoder doubles, the decoder is the identity *)
Example x_sized : sized (new_vae 1).
Proof. done. Qed.
Example x_forward : vae_ff (λ x, [(2 * el x 0)%R; 1%R]) (λ z, z) (λ _, 3%R) [5%R] (new_vae 1) = Some (mkVae 1 [(3 * 1 + 2 * el [5%R] 0)%R] [3%R] [0%R] [0%R], [(2 * el [5%R] 0)%R; 1%R], [(3 * 1 + 2 * el [5%R] 0)%R]).
Proof. done. Qed.
Example x_backward : ∃ v' e, vae_bp (λ _ e, (e, tt)) (λ _ e, (e, tt)) [5%R] [0%R] [0%R; 1%R] (mkVae 1 [3%R] [3%R] [0%R] [0%R]) = Some (v', tt, e, (e, tt)) /\ el e 1 <> 0%R.
Proof.
  eapply (vae_divergence_refuted (λ _ e, (e, tt)) (λ _ e, (e, tt)) (λ _, 0%R) [5%R] [0%R] [0%R; 1%R] (mkVae 1 [3%R] [3%R] [0%R] [0%R]) [0%R] tt 0 1 0 0); try done; try (cbn; lia).
  - cbn. unfold latent_of, mean, std. cbn. f_equal. lra.
  - unfold has_partial. apply dlim_const.
  - by left.
  - unfold has_partial, objective. eapply dlim_ext; [|apply (dlim_const 0)]. intros t. cbn beta. lra.
Qed.

Print Assumptions vae_forward.
Print Assumptions vae_backward.
Print Assumptions vae_gradient_of_code_objective.
Print Assumptions vae_divergence_refuted.
Print Assumptions vae_rests_at_variance_one_half.
Print Assumptions vae_free_null_refuted.
Print Assumptions vae_free_leaks_the_latent_vector_refuted.
