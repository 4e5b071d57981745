(** Specification of reward-class bookkeeping. *)
From Verif Require Import RealSum Replay_Spec Cumul_Spec.
Open Scope nat_scope.

(** What the code can see of a reward: its comparisons with 0 (a C float; NaN compares false). *)
Inductive sign := Pos | Neg | Zero | NaN.
Inductive class := Positive | Negative | Neutral.
#[global] Instance class_eq_dec : EqDecision class. Proof. solve_decision. Defined.
(** the class of a proper reward *)
Definition class_of (s : sign) : option class :=
  match s with Pos => Some Positive | Neg => Some Negative | Zero => Some Neutral | NaN => None end.

(** User calls: store a transition with a reward; a training step uses the transition in a slot. *)
Inductive rop := Store (s : sign) | Use (slot : nat).
Fixpoint rewards_of (h : list rop) : list sign :=
  match h with [] => [] | Store s :: h => s :: rewards_of h | Use _ :: h => rewards_of h end.
(** only occupied slots are used *)
Fixpoint valid_rops (c m : nat) (h : list rop) : Prop :=
  match h with
  | [] => True
  | Store _ :: h => valid_rops c (m + 1) h
  | Use slot :: h => slot < stored c m /\ valid_rops c m h
  end.
(** How often the transition now in [slot] was used since it was stored (capacity c). *)
Fixpoint uses_since (c m : nat) (slot u : nat) (h : list rop) : nat :=
  match h with
  | [] => u
  | Store _ :: h => uses_since c (m + 1) slot (if decide (m mod c = slot) then 0 else u) h
  | Use s :: h => uses_since c m slot (if decide (s = slot) then u + 1 else u) h
  end.

(** After the history h, slot j of a buffer of capacity c holds a transition whose reward is of class k. *)
Definition holds (c : nat) (h : list rop) (k : class) (j : nat) : Prop :=
  j < c /\ exists s, latest_in_slot c (rewards_of h) j (Some s) /\ class_of s = Some k.
(** L enumerates the slots of class k. *)
Definition enumerates (c : nat) (h : list rop) (k : class) (L : list nat) : Prop :=
  NoDup L /\ forall j, j ∈ L <-> holds c h k j.
(** The sampling weight of a slot: (1 / (1 + number of uses))^alpha. *)
Definition slot_weight (alpha : R) (c : nat) (h : list rop) (j : nat) : R :=
  Rpower (/ INR (1 + uses_since c 0 j 0 h)) alpha.
