(** Specification of scaled dot-product attention, in the memory layout that the code reads: queries and keys are stored
    one token after the other (entry e of token t at t*ke+e), values one channel after the other (channel c of token s at
    c*n+s), outputs one token after the other (t*ve+c). *)
From Verif Require Import NumLib.
Open Scope R_scope.

Definition score (q k : list R) (ke : nat) (t s : nat) : R :=
  sumn ke (fun e => el q (t * ke + e) * el k (s * ke + e)) / R_sqrt.sqrt (INR ke).
(** how many tokens are visible from token t *)
Definition visible (masked : bool) (n t : nat) : nat := if masked then S t else n.
Definition weight (masked : bool) (q k : list R) (n ke : nat) (t s : nat) : R :=
  if decide (s < visible masked n t)%nat then exp (score q k ke t s) / sumn (visible masked n t) (fun s => exp (score q k ke t s)) else 0.
Definition attention (masked : bool) (q k v : list R) (n ke : nat) (t c : nat) : R :=
  sumn n (fun s => weight masked q k n ke t s * el v (c * n + s)).
(** <errors, outputs> *)
Definition attention_loss (masked : bool) (q k v err : list R) (n ke ve : nat) : R :=
  sumn n (fun t => sumn ve (fun c => el err (t * ve + c) * attention masked q k v n ke t c)).
