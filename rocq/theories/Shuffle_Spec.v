(** Independent specification vocabulary for shuffling. *)
From Verif Require Import Base.

(** All values returned by rand() are between 0 and RAND_MAX. *)
Definition rand_ok (rmax : Z) (rand : nat -> Z) : Prop := forall k, (0 <= rand k <= rmax)%Z.

(** [p] lists the positions 0..n-1 in some order. *)
Definition permutation_of_positions (n : nat) (p : list nat) : Prop := p ≡ₚ seq 0 n.

(** [m'] is the array [m] read in the order [p]: m'[k] = m[p[k]]. *)
Definition reordered_by {A} (p : list nat) (m m' : list A) : Prop :=
  Forall2 (fun k x => m !! k = Some x) p m'.
