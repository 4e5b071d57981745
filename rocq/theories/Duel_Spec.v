(** What the dueling head and the distributional target should compute, from the literature's formulas and without the
    code's helpers.  V is the value stream (n entries), A the advantage stream (row i of n entries for action i). *)
From Coq Require Import Reals Lra.
From Verif Require Export NumLib.
Open Scope R_scope.

(** the mean over the actions of the advantages of atom k *)
Definition mean_advantage (n actions : nat) (A : list R) (k : nat) : R := sumn actions (fun j => el A (j * n + k)) / INR actions.
(** V + A - mean A *)
Definition logit (n actions : nat) (V A : list R) (i k : nat) : R := el V k + el A (i * n + k) - mean_advantage n actions A k.
(** the distribution of action i *)
Definition prob (n actions : nat) (V A : list R) (i k : nat) : R :=
  exp (logit n actions V A i k) / sumn n (fun k' => exp (logit n actions V A i k')).
(** a loss whose derivative with respect to the probability of atom k of action i is e[i*n+k], and one whose derivative
    with respect to the combined value itself is e[i*n+k] *)
Definition through_probabilities (n actions : nat) (e V A : list R) : R :=
  sumn actions (fun i => sumn n (fun k => el e (i * n + k) * prob n actions V A i k)).
Definition through_logits (n actions : nat) (e V A : list R) : R :=
  sumn actions (fun i => sumn n (fun k => el e (i * n + k) * logit n actions V A i k)).

(** atom j of a support of n equally spaced atoms from vmin to vmax *)
Definition atom (n : nat) (vmin vmax : R) (j : nat) : R := vmin + INR j * ((vmax - vmin) / INR (n - 1)).
Definition clipped (lo hi x : R) : R := Rmax lo (Rmin hi x).
(** the share of a unit mass at x received by an atom at z when atoms are d apart: [1 - |x - z| / d] limited to [0,1] *)
Definition share (d x z : R) : R := Rmin 1 (Rmax 0 (1 - Rabs (x - z) / d)).
(** the place to which the Bellman update moves atom i *)
Definition moved (n : nat) (vmin vmax reward lambda : R) (nonterminal : bool) (i : nat) : R :=
  clipped vmin vmax (if nonterminal then reward + lambda * atom n vmin vmax i else reward).
(** the mass carried by atom i: its probability, or, at the end of an episode, an equal part *)
Definition mass (n : nat) (nonterminal : bool) (p : list R) (i : nat) : R := if nonterminal then el p i else 1 / INR n.
(** the projected target: atom j receives a share of the mass of every moved atom *)
Definition projected (n : nat) (vmin vmax reward lambda : R) (nonterminal : bool) (p : list R) (j : nat) : R :=
  sumn n (fun i => mass n nonterminal p i * share ((vmax - vmin) / INR (n - 1)) (moved n vmin vmax reward lambda nonterminal i) (atom n vmin vmax j)).

(** i is the first index of a maximum of f on 0..n-1 *)
Definition first_argmax (n : nat) (f : nat -> R) (i : nat) : Prop :=
  (i < n)%nat /\ (forall j, (j < n)%nat -> f j <= f i) /\ (forall j, (j < i)%nat -> f j < f i).
(** the value of action i: the mean of its distribution over the atoms *)
Definition value (n actions : nat) (vmin vmax : R) (V A : list R) (i : nat) : R :=
  sumn n (fun k => prob n actions V A i k * atom n vmin vmax k).
(** Kullback-Leibler divergence of m from p *)
Definition kl (n : nat) (m p : nat -> R) : R := sumn n (fun i => if decide (m i = 0) then 0 else m i * ln (m i / p i)).
