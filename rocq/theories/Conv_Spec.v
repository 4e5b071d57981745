(** Independent specification of (transposed) convolutions. *)
From Verif Require Import NumLib NumLib3.
Open Scope nat_scope.

(** element (c,i,j) of a channels x I x J tensor stored row by row *)
Definition at3 (I J : nat) (l : list R) (c i j : nat) : R := el l ((c * I + i) * J + j).
(** number of positions of a window of size k moved in steps of s inside n cells *)
Definition positions (n k s : nat) : nat := (n - k) / s + 1.

(** value of the strided multi-channel cross-correlation at (r,s) *)
Definition corr (ii ij ki kj ch s1 s2 : nat) (K x : list R) (r s : nat) : R :=
  sum3 ch ki kj (fun c i j => at3 ki kj K c i j * at3 ii ij x c (r * s1 + i) (s * s2 + j))%R.

(** the output feature map: correlation plus bias inside, zero on the padding border *)
Definition conv_map (ii ij ki kj ch s1 s2 p : nat) (K : list R) (b : R) (x : list R) : list R :=
  let I := positions ii ki s1 + 2 * p in let J := positions ij kj s2 + 2 * p in
  map (fun q => if decide (p <= q / J < p + positions ii ki s1 /\ p <= q mod J < p + positions ij kj s2)
                then (corr ii ij ki kj ch s1 s2 K x (q / J - p) (q mod J - p) + b)%R else 0%R) (seq 0 (I * J)).

Definition conv_shape (ii ij ki kj ch s1 s2 p : nat) (K x : list R) : Prop :=
  ki <= ii /\ kj <= ij /\ s1 <> 0 /\ s2 <> 0 /\ length K = ch * ki * kj /\ length x = ch * ii * ij.

(** Transposed convolution: input cell (a,b) of channel c contributes x*K at (a*s1+i, b*s2+j). *)
Definition tfull (ii ij ki kj ch s1 s2 : nat) (K x : list R) (r s : nat) : R :=
  sum2 ii ij (fun a b => sum3 ch ki kj (fun c i j =>
    if decide (r = a * s1 + i /\ s = b * s2 + j) then (at3 ii ij x c a b * at3 ki kj K c i j)%R else 0%R)).
(** size of the uncropped map *)
Definition tdim (n k s : nat) : nat := (n - 1) * s + k.
(** feature map: full map cropped by p on every side, plus bias *)
Definition tconv_map (ii ij ki kj ch s1 s2 p : nat) (K : list R) (b : R) (x : list R) : list R :=
  let I := tdim ii ki s1 - 2 * p in let J := tdim ij kj s2 - 2 * p in
  map (fun q => tfull ii ij ki kj ch s1 s2 K x (p + q / J) (p + q mod J) + b)%R (seq 0 (I * J)).
Definition tconv_shape (ii ij ki kj ch : nat) (K x : list R) : Prop :=
  ii <> 0 /\ ij <> 0 /\ length K = ch * ki * kj /\ length x = ch * ii * ij.
(** channel c of a kernel *)
Definition channel (I J c : nat) (K : list R) : list R := take (I * J) (drop (c * I * J) K).
