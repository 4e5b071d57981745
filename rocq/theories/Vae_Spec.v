(** Specification of a variational autoencoder with latent size n, in terms of the output y of the encoder: its first half are the
    means, its second half the stds. *)
From Verif Require Import NumLib Grad Vae_Model.
From Coq Require Import Reals.
Local Open Scope R_scope.

Definition mean (y : vec) (k : nat) : R := el y k.
Definition std (n : nat) (y : vec) (k : nat) : R := el y (n + k).
(** the latent vector for the noise eps *)
Definition latent_of (n : nat) (eps y : vec) : vec := map (λ k, mean y k + std n y k * el eps k) (seq 0 n).
(** the Kullback-Leibler divergence of the normal distributions with these means and stds from the standard one *)
Definition kl (n : nat) (y : vec) : R :=
  / 2 * sumn n (λ k, mean y k * mean y k + std n y k * std n y k - 1 - ln (std n y k * std n y k)).
(** what is to be minimised: the loss L of the decoder's output, as a function of the latent vector, and the divergence *)
Definition objective (a b : R) (L : vec -> R) (n : nat) (eps y : vec) : R := a * L (latent_of n eps y) + b * kl n y.
(** what the code minimises *)
Definition code_objective (L : vec -> R) (n : nat) (eps y : vec) : R :=
  2 * L (latent_of n eps y) + sumn n (λ k, mean y k * mean y k + std n y k * std n y k - / 2 * ln (std n y k * std n y k)).

Definition sized (v : vae) : Prop :=
  length (vz v) = latent v /\ length (veps v) = latent v /\ length (dmean v) = latent v /\ length (dstd v) = latent v.
