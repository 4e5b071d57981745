From Coquelicot Require Import Coquelicot.
From Verif Require Import NumLib Deriv Grad BaseLemmas Vae_Model Vae_Spec.
From Coq Require Import Reals Lia Lra.
Open Scope nat_scope.

Lemma el_insert l i v k : i < length l -> el (<[i := v]> l) k = if decide (k = i) then v else el l k.
Proof. intros Hi. by apply el_upd. Qed.

Lemma loop_el oo n body (g : nat -> R -> R) out :
  (∀ i l, i < n -> length l = length out -> body i l = wr l (oo + i) (g i (el l (oo + i)))) -> oo + n <= length out ->
  ∃ out', for_loop n 0 body out = Some out' /\ length out' = length out /\
    ∀ k, el out' k = if decide (oo <= k < oo + n) then g (k - oo) (el out k) else el out k.
Proof.
  intros Hb Ho.
  assert (HP : Pointwise (length out) (for_loop n 0 body) (fun k x => if decide (oo <= k < oo + n) then g (k - oo) x else x)).
  { apply Pointwise_loop; [done|]. intros i Hi l Hl. rewrite Hb by done. rewrite wr_Some by lia. f_equal.
    apply list_eq. intros k. rewrite list_lookup_imap. destruct (decide (k = oo + i)) as [->|Hk].
    - rewrite list_lookup_insert by lia. rewrite lookup_el by lia. cbn [fmap option_fmap option_map]. by destruct (decide (oo + i = oo + i)).
    - rewrite list_lookup_insert_ne by done. destruct (l !! k); cbn [fmap option_fmap option_map]; [|done]. by destruct (decide (k = oo + i)). }
  eexists. split; [by apply HP|]. split; [by rewrite imap_length|]. intros k. destruct (decide (k < length out)) as [Hk|Hk].
  - by rewrite el_imap by done.
  - rewrite el_ge by (rewrite imap_length; lia). rewrite decide_False by lia. by rewrite el_ge by lia.
Qed.

Lemma map2_into_el op a ao b bo oo n out : ao + n <= length a -> bo + n <= length b -> oo + n <= length out ->
  ∃ out', map2_into op a ao b bo oo n out = Some out' /\ length out' = length out /\
    ∀ k, el out' k = if decide (oo <= k < oo + n) then op (el a (ao + (k - oo))) (el b (bo + (k - oo))) else el out k.
Proof.
  intros Ha Hb Ho. unfold map2_into. apply (loop_el oo n _ (λ i _, op (el a (ao + i)) (el b (bo + i)))); [|done].
  intros i l Hi Hl. rewrite rd_el by lia. cbn [mbind option_bind]. rewrite rd_el by lia. done.
Qed.
Lemma map2_in_place_el op b bo oo n out : bo + n <= length b -> oo + n <= length out ->
  ∃ out', map2_in_place op b bo oo n out = Some out' /\ length out' = length out /\
    ∀ k, el out' k = if decide (oo <= k < oo + n) then op (el out k) (el b (bo + (k - oo))) else el out k.
Proof.
  intros Hb Ho. unfold map2_in_place. apply (loop_el oo n _ (λ i x, op x (el b (bo + i)))); [|done].
  intros i l Hi Hl. rewrite rd_el by lia. cbn [mbind option_bind]. rewrite rd_el by lia. done.
Qed.
Lemma copy_into_el a n out : n <= length a -> n <= length out ->
  ∃ out', copy_into a n out = Some out' /\ length out' = length out /\ ∀ k, el out' k = if decide (k < n) then el a k else el out k.
Proof.
  intros Ha Ho. destruct (loop_el 0 n (λ i out, x ← rd a i; wr out i x) (λ i _, el a i) out) as (out' & E & L & H).
  - intros i l Hi Hl. by rewrite rd_el by lia.
  - done.
  - exists out'. split; [done|]. split; [done|]. intros k. rewrite H. cbn. rewrite Nat.sub_0_r.
    destruct (decide (0 <= k < n)), (decide (k < n)); done || lia.
Qed.
Lemma regularise_el y v ds dm : latent v * 2 <= length y -> latent v <= length ds -> latent v <= length dm ->
  ∃ ds' dm', regularise y v ds dm = Some (ds', dm') /\ length ds' = length ds /\ length dm' = length dm /\
    (∀ k, k < latent v -> el ds' k = (el ds k + (2 * std (latent v) y k - 1 / std (latent v) y k))%R) /\
    (∀ k, k < latent v -> el dm' k = (el dm k + 2 * mean y k)%R).
Proof.
  intros Hy Hs Hm. set (n := latent v) in *.
  destruct (loop_el 0 n (λ j ds, s ← rd y (n + j); d ← rd ds j; wr ds j (d + (2 * s - 1 / s))%R)
              (λ j d, d + (2 * el y (n + j) - 1 / el y (n + j)))%R ds) as (ds' & E1 & L1 & H1).
  { intros i l Hi Hl. rewrite rd_el by lia. cbn [mbind option_bind]. rewrite rd_el by lia. done. } { done. }
  destruct (loop_el 0 n (λ j dm, m ← rd y j; e ← rd dm j; wr dm j (e + 2 * m)%R) (λ j e, e + 2 * el y j)%R dm) as (dm' & E2 & L2 & H2).
  { intros i l Hi Hl. rewrite rd_el by lia. cbn [mbind option_bind]. rewrite rd_el by lia. done. } { done. }
  exists ds', dm'. split.
  { unfold regularise. fold n.
    rewrite (for_loop_pair (λ j ds, s ← rd y (n + j); d ← rd ds j; wr ds j (d + (2 * s - 1 / s))%R) (λ j dm, m ← rd y j; e ← rd dm j; wr dm j (e + 2 * m)%R)).
    - rewrite E1. cbn [mbind option_bind]. rewrite E2. done.
    - intros i a b Hi. cbn [fst snd]. rewrite (rd_el y (n + i)), (rd_el y i) by lia. cbn [mbind option_bind]. destruct (rd a i); cbn [mbind option_bind]; [|done].
      destruct (wr a i _); cbn [mbind option_bind]; [|done]. destruct (rd b i); cbn [mbind option_bind]; [|done]. done. }
  split; [done|]. split; [done|]. split; intros k Hk.
  - rewrite H1. rewrite decide_True by lia. rewrite Nat.sub_0_r. done.
  - rewrite H2. rewrite decide_True by lia. rewrite Nat.sub_0_r. done.
Qed.

Lemma list_eq_el (l k : vec) : length l = length k -> (∀ i, i < length l -> el l i = el k i) -> l = k.
Proof.
  intros Hl H. apply list_eq. intros i. destruct (decide (i < length l)) as [Hi|Hi].
  - rewrite !lookup_el by lia. f_equal. by apply H.
  - rewrite !lookup_ge_None_2 by lia. done.
Qed.
Lemma latent_of_length n eps y : length (latent_of n eps y) = n.
Proof. unfold latent_of. by rewrite map_length, seq_length. Qed.
Lemma el_latent_of n eps y k : k < n -> el (latent_of n eps y) k = (mean y k + std n y k * el eps k)%R.
Proof. intros Hk. unfold latent_of. by rewrite el_map_seq by done. Qed.

Local Open Scope R_scope.
(** the latent vector changes in one place *)
Lemma latent_of_mean n eps y k t : length y = (n * 2)%nat -> (k < n)%nat ->
  latent_of n eps (<[k := t]> y) = <[k := t + std n y k * el eps k]> (latent_of n eps y).
Proof.
  intros Ly Hk. apply list_eq_el; [by rewrite insert_length, !latent_of_length|]. intros i Hi. rewrite latent_of_length in Hi.
  rewrite el_insert by (by rewrite latent_of_length). rewrite !el_latent_of by done. unfold mean, std.
  rewrite !el_insert by lia. rewrite (decide_False (P := (n + i)%nat = k)) by lia. destruct (decide (i = k)) as [->|]; done.
Qed.
Lemma latent_of_std n eps y k t : length y = (n * 2)%nat -> (k < n)%nat ->
  latent_of n eps (<[(n + k)%nat := t]> y) = <[k := mean y k + t * el eps k]> (latent_of n eps y).
Proof.
  intros Ly Hk. apply list_eq_el; [by rewrite insert_length, !latent_of_length|]. intros i Hi. rewrite latent_of_length in Hi.
  rewrite el_insert by (by rewrite latent_of_length). rewrite !el_latent_of by done. unfold mean, std.
  rewrite !el_insert by lia. rewrite (decide_False (P := i = (n + k)%nat)) by lia.
  destruct (decide (i = k)) as [->|]; [by rewrite decide_True by lia|by rewrite decide_False by lia].
Qed.

(** the loss of the decoder *)
Lemma loss_mean L n eps y k g : length y = (n * 2)%nat -> (k < n)%nat -> has_partial L (latent_of n eps y) k g ->
  has_partial (λ y, L (latent_of n eps y)) y k g.
Proof.
  intros Ly Hk HL. unfold has_partial in *. eapply dlim_ext. { intros t. rewrite latent_of_mean by done. reflexivity. }
  eapply dlim_val; [|apply (dlim_comp (λ t, t + std n y k * el eps k) (λ u, L (<[k := u]> (latent_of n eps y))) _ 1 g)]; [lra| |].
  - apply (dlim_affine _ _ 1 (std n y k * el eps k)). intros t. ring.
  - rewrite el_latent_of in HL by done. exact HL.
Qed.
Lemma loss_std L n eps y k g : length y = (n * 2)%nat -> (k < n)%nat -> has_partial L (latent_of n eps y) k g ->
  has_partial (λ y, L (latent_of n eps y)) y (n + k) (g * el eps k).
Proof.
  intros Ly Hk HL. unfold has_partial in *. eapply dlim_ext. { intros t. rewrite latent_of_std by done. reflexivity. }
  apply (dlim_comp (λ t, mean y k + t * el eps k) (λ u, L (<[k := u]> (latent_of n eps y))) _ (el eps k) g).
  - apply (dlim_affine _ _ (el eps k) (mean y k)). intros t. ring.
  - rewrite el_latent_of in HL by done. exact HL.
Qed.

(** a sum of terms per latent number, with the logarithm of the variance weighted by c *)
Lemma terms_mean n y k c d : length y = (n * 2)%nat -> (k < n)%nat ->
  has_partial (λ y, sumn n (λ k, mean y k * mean y k + std n y k * std n y k - d - c * ln (std n y k * std n y k))) y k (2 * mean y k).
Proof.
  intros Ly Hk. unfold has_partial.
  eapply dlim_val; [|apply (dlim_sumn n (λ i t, mean (<[k:=t]> y) i * mean (<[k:=t]> y) i + std n (<[k:=t]> y) i * std n (<[k:=t]> y) i - d - c * ln (std n (<[k:=t]> y) i * std n (<[k:=t]> y) i))
    (el y k) (λ i, if decide (i = k) then 2 * mean y k else 0))].
  - apply sumn_delta. done.
  - intros i Hi. eapply dlim_ext.
    { intros t. unfold mean, std. rewrite !el_insert by lia. rewrite (decide_False (P := (n + i)%nat = k)) by lia. reflexivity. }
    destruct (decide (i = k)) as [->|Hne]; [|apply dlim_const].
    set (s := ln _). set (q := el y (n + k) * el y (n + k)).
    apply (dlim_ext _ (λ t, t * t + (q - d - c * s))). { intros t. lra. }
    eapply dlim_val; [|apply dlim_plus; [apply (dlim_mult (λ t, t) (λ t, t) _ 1 1); apply dlim_id|apply dlim_const]]. unfold mean. lra.
Qed.
Lemma terms_std n y k c d : length y = (n * 2)%nat -> (k < n)%nat -> std n y k <> 0 ->
  has_partial (λ y, sumn n (λ k, mean y k * mean y k + std n y k * std n y k - d - c * ln (std n y k * std n y k))) y (n + k) (2 * std n y k - 2 * c / std n y k).
Proof.
  intros Ly Hk Hs. unfold has_partial.
  eapply dlim_val; [|apply (dlim_sumn n (λ i t, mean (<[(n+k)%nat:=t]> y) i * mean (<[(n+k)%nat:=t]> y) i + std n (<[(n+k)%nat:=t]> y) i * std n (<[(n+k)%nat:=t]> y) i - d - c * ln (std n (<[(n+k)%nat:=t]> y) i * std n (<[(n+k)%nat:=t]> y) i))
    (el y (n + k)) (λ i, if decide (i = k) then 2 * std n y k - 2 * c / std n y k else 0))].
  - apply sumn_delta. done.
  - intros i Hi. eapply dlim_ext.
    { intros t. unfold mean, std. rewrite !el_insert by lia. rewrite (decide_False (P := i = (n + k)%nat)) by lia. reflexivity. }
    destruct (decide (i = k)) as [->|Hne].
    + eapply dlim_ext. { intros t. rewrite decide_True by done. reflexivity. }
      set (q := el y k * el y k). unfold std in *. set (s := el y (n + k)) in *.
      assert (Hp : 0 < s * s) by nra.
      apply is_derive_Reals. auto_derive; [lra|]. field. done.
    + eapply dlim_ext. { intros t. rewrite decide_False by lia. reflexivity. } apply dlim_const.
Qed.
