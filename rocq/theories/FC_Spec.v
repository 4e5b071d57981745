(** Specification of a dense layer: y_j = b_j + sum_i W_{j,i} x_i, W stored row by row. *)
From Verif Require Import NumLib.
Open Scope nat_scope.

Definition dense (isz osz : nat) (W b x : list R) : list R :=
  map (fun j => (el b j + sumn isz (fun i => el W (j * isz + i) * el x i))%R) (seq 0 osz).
(** all biases zero *)
Definition no_bias : list R := [].
(** the weights with every index outside [sel] set to zero *)
Definition keep_only (sel : list nat) (W : list R) : list R := imap (fun k w => if decide (k ∈ sel) then w else 0%R) W.
(** weights multiplied by mask values *)
Definition gate (m W : list R) : list R := imap (fun k w => (el m k * w)%R) W.
